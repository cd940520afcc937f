(** What IsMemberCategoricalFixup takes. *)
From Verif Require Import Base EaModel EaSpec MwSpec.
Local Open Scope Z_scope.

(** An array of category numbers, one after the other, the last of which is below [n]. *)
Definition categories (n : Z) (a : arg Z) : Prop := In (a_dtype a) [1; 3; 5; 7; 9] /\ plain a /\ forall v, In v (arg_vals 0 a) -> v < n.
(** For every category of the first array the category of the second that is equal to it, below [n], or the invalid number; no two are the same. *)
Definition matches (n : Z) (u : arg Z) : Prop := a_dtype u = 5 /\ plain u /\ a_len u < 2 ^ 31 /\
  (forall x, In x (arg_vals 0 u) -> x = - 2 ^ 31 \/ 0 <= x < n) /\
  (forall i j x, nth_error (arg_vals 0 u) i = Some x -> nth_error (arg_vals 0 u) j = Some x -> x <> - 2 ^ 31 -> i = j).
