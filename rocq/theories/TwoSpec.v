(** What the preparation of two operands should do. *)
From Coq Require Import Reals SpecFloat.
From Flocq Require Import Core.
From Verif Require Import Base ConvModel ConvSpec TwoModel.
Local Open Scope Z_scope.

Definition unsigned (t : Z) : Prop := In t [2; 4; 6; 8; 10].
Definition signed (t : Z) : Prop := In t [1; 3; 5; 7; 9].
Definition long_unsigned (t : Z) : Prop := In t [8; 10].
(** an item of the type that is not its invalid value *)
Definition plain (d : dtype) (x : val) : Prop := typed d x /\ invalid d <> Some x.
(** the Python integers for which the rule for scalars finds a type that holds both the scalar and the array *)
Definition scalar_fits (t z : Z) : Prop :=
  (signed t \/ t = 0) /\ - 2 ^ 63 <= z < 2 ^ 63
  \/ unsigned t /\ 0 <= z < 2 ^ 63
  \/ long_unsigned t /\ 0 <= z < 2 ^ 64
  \/ unsigned t /\ t < 8 /\ - 2 ^ 63 <= z < 0
     /\ ~ (- 2 ^ 8 <= z < - 2 ^ 7) /\ ~ (- 2 ^ 16 <= z < - 2 ^ 15) /\ ~ (- 2 ^ 32 <= z < - 2 ^ 31).
(** [p] holds the integers [xs] and [ys], in one integer type *)
Definition same_integers (p : prep) (m : smode) (xs ys : list val) : Prop :=
  mode p = m /\ in1 p = xs /\ in2 p = ys /\ ty1 p = ty2 p /\ 0 <= ty1 p <= 10
  /\ exists d, of_num (ty1 p) = Some d /\ Forall (typed d) xs /\ Forall (typed d) ys.
(** [p] holds the numbers [xs] and [ys], in the type [d] *)
Definition same_number (d : dtype) (x y : val) : Prop := typed d y /\ exists r, denotes x r /\ denotes y r.
Definition same_numbers (p : prep) (m : smode) (d : dtype) (xs ys : list val) : Prop :=
  mode p = m /\ ty1 p = ty2 p /\ of_num (ty1 p) = Some d /\ ty1 p <> 13
  /\ Forall2 (same_number d) xs (in1 p) /\ Forall2 (same_number d) ys (in2 p).
(** the common type of two types when one of them is a float type *)
Definition float_type (t1 t2 : Z) : dtype := if (t1 =? 12) || (t2 =? 12) then F64 else F32.
(** a number that is not the invalid value and that is a number of type [u] *)
Definition fits (d u : dtype) (x : val) : Prop := plain d x /\ exists r, denotes x r /\ representable u r.
