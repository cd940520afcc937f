(** Rolling windows of one array: what they are meant to be. *)
From Coq Require Import QArith QArith.Qcanon.
From Verif Require Import Base GrpxModel AccumSpec GrpxSpec RollModel.
Local Open Scope Qc_scope.

(** every row of the result is what [P] says *)
Definition rolled {T U} (P : nat -> U -> Prop) (l : list T) (res : list U) : Prop :=
  length res = length l /\ forall k u, nth_error res k = Some u -> P k u.
(** mean and sum of squared distances from the mean *)
Definition qsum (l : list Qc) : Qc := fold_left Qcplus l 0.
Definition mean (l : list Qc) : Qc := qsum l / nqc (length l).
Definition squares (l : list Qc) : Qc := qsum (map (fun x => (x - mean l) * (x - mean l)) l).

Section Vars.
  Context {V : Type} (root : option Qc -> V).
  (** the variance: divided by the number of items less one while the window fills, by the number of items once it slid *)
  Definition var_row (win : Z) (l : list Qc) (k : nat) (u : V) : Prop :=
    let w := window win k l in
    u = root (if (Z.of_nat k <? win)%Z then match k with O => None | _ => Some (squares w / nqc (length w - 1)) end else Some (squares w / nqc (length w))).
  (** divided by the number of items *)
  Definition nanvar_row (win : Z) (l : list Qc) (k : nat) (u : V) : Prop := u = root (Some (squares (window win k l) / nqc (length (window win k l)))).
End Vars.

(** int64 subtraction wraps *)
Definition sub64 (a b : Z) : Z := wrap64 (a - b).
