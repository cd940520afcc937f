(** What ReverseShuffle and ReIndexGroups take. *)
From Verif Require Import Base EaModel EaSpec MwSpec RvModel.
Local Open Scope Z_scope.

(** The type of signed integers of [w] bits. *)
Definition signed_of (w d : Z) : Prop := (w = 8 /\ d = 1) \/ (w = 16 /\ d = 3) \/ (w = 32 /\ d = 5) \/ (w = 64 /\ (d = 7 \/ d = 9)).
(** The numbers from 0 to the length less one, in any order, and they fit into [w] bits. *)
Definition shuffle (w : Z) (l : list Z) : Prop := Permutation l (map Z.of_nat (seq 0 (length l))) /\ Z.of_nat (length l) <= 2 ^ (w - 1).
(** An array of signed integers of [w] bits, one after the other. *)
Definition integer_array (w : Z) (s : sized) : Prop := signed_of w (a_dtype (s_arg s)) /\ w = 8 * s_bytes s /\ plain (s_arg s).
(** The ends of the partitions: ascending, and within [n] rows. *)
Definition cuts (n : Z) (l : list Z) : Prop := (forall a b, (a <= b < length l)%nat -> nth a l 0 <= nth b l 0) /\ (forall x, In x l -> 0 <= x <= n).
