(** What the group variance and standard deviation should be: definitions for the statements in VarProps.v. *)
From Verif Require Import Base AccumSpec.
From Coq Require Import Reals.
Local Open Scope Z_scope.

Section Spec.
  Context {T U D : Type} (okT : T -> bool) (uinv : U) (zeroD : D) (convD : T -> D) (castf : D -> U)
          (addD subD mulD : D -> D -> D) (divD : D -> Z -> D) (sqrtU : U -> U).
  (* the mean of the values and the sum of the squared distances to it *)
  Definition mean_value (vals : list T) : D := divD (total zeroD convD addD vals) (Z.of_nat (length vals)).
  Definition squares (m : D) (vals : list T) : D :=
    fold_left (fun s x => addD s (mulD (subD (convD x) m) (subD (convD x) m))) vals zeroD.
  (* variance of the sample: an invalid value makes it invalid, and so do fewer than two values *)
  Definition var_spec (vals : list T) (r : U) : Prop :=
    r = if forallb okT vals && (2 <=? length vals)%nat then castf (divD (squares (mean_value vals) vals) (Z.of_nat (length vals) - 1)) else uinv.
  (* invalid values are skipped *)
  Definition nanvar_spec (vals : list T) (r : U) : Prop := var_spec (filter okT vals) r.
  Definition std_spec (vals : list T) (r : U) : Prop := exists v, var_spec vals v /\ r = sqrtU v.
  Definition nanstd_spec (vals : list T) (r : U) : Prop := exists v, nanvar_spec vals v /\ r = sqrtU v.
End Spec.

(** ** The real numbers, with None for NaN: the arithmetic without rounding *)
Definition lift1 (f : R -> R) (a : option R) : option R := match a with Some x => Some (f x) | None => None end.
Definition lift2 (f : R -> R -> R) (a b : option R) : option R := match a, b with Some x, Some y => Some (f x y) | _, _ => None end.
Definition rdivn (a : option R) (n : Z) : option R := if n =? 0 then None else lift1 (fun x => x / IZR n)%R a.
Definition is_num (a : option R) : bool := match a with Some _ => true | None => false end.
Fixpoint Rtotal (l : list R) : R := match l with [] => 0%R | x :: r => (x + Rtotal r)%R end.
Definition Raverage (l : list R) : R := (Rtotal l / IZR (Z.of_nat (length l)))%R.
(* the variance of a sample as in textbooks *)
Definition sample_variance (l : list R) : R :=
  (Rtotal (map (fun x => (x - Raverage l) ^ 2) l) / IZR (Z.of_nat (length l) - 1))%R.
(** The numbers of a list with NaN. *)
Fixpoint numbers (l : list (option R)) : list R := match l with [] => [] | Some x :: r => x :: numbers r | None :: r => numbers r end.
