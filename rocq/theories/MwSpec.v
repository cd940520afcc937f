(** What SetItem and PutMask should do to the memory of an array. *)
From Verif Require Import Base EaModel EaSpec MwModel.
Local Open Scope Z_scope.

(** [m] is the memory of the array when its elements have become [l]; the rest is unchanged. *)
Definition now_holds {X} (zero : X) (a : arg X) (l m : list X) : Prop :=
  length m = length (a_mem a) /\ arg_vals zero (mkArg (a_dtype a) m (a_start a) (a_step a) (a_len a)) = l /\
  forall i, Z.of_nat i < a_start a \/ a_start a + a_len a <= Z.of_nat i -> nth_error m i = nth_error (a_mem a) i.
(** An array of one dimension whose elements lie one after the other. *)
Definition plain {X} (a : arg X) : Prop := 0 <= a_len a /\ arg_ok (a_len a) a /\ gapless a.
(** Both arrays have one dimension, the same type and the same size of an element. *)
Definition alike (a v : array) : Prop := r_dims a = 1 /\ r_dims v = 1 /\ 0 < r_size a /\ r_size v = r_size a /\ a_dtype (r_items v) = a_dtype (r_items a).
