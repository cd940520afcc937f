(** The tables MergeBinnedAndSorted takes. *)
From Verif Require Import Base EaModel EaSpec MwSpec.
From Verif Require RvModel HashSpec.
Local Open Scope Z_scope.

(** The types of [w] bits. *)
Definition type_of (w d : Z) : Prop := w = 32 /\ d = 5 \/ w = 64 /\ (d = 7 \/ d = 9).
Definition table (w uniques : Z) (k : arg Z) (v : RvModel.sized) : Prop :=
  type_of w (a_dtype k) /\ plain k /\ a_len k < 2 ^ (w - 1) /\ (forall x, In x (arg_vals 0 k) -> 0 <= x < uniques) /\
  type_of w (a_dtype (RvModel.s_arg v)) /\ plain (RvModel.s_arg v) /\ RvModel.s_bytes v * 8 = w /\ a_len (RvModel.s_arg v) = a_len k /\
  HashSpec.time_sorted Z.lt (fun _ => True) (arg_vals 0 (RvModel.s_arg v)).
