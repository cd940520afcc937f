(** What GroupByPack32 should return. *)
From Verif Require Import Base GroupSpec.
Local Open Scope Z_scope.

(** The groups 1 .. [u] are numbered in the order of their first rows; group 0 is anywhere. *)
Definition first_order (u : Z) (keys : list Z) : Prop :=
  all_in_range (u + 1) keys /\
  forall g, 1 <= g <= u -> exists i, nth_error keys i = Some g /\ forall j k, (j < i)%nat -> nth_error keys j = Some k -> k < g.
(** [next] holds for every row the next row of its group, -1 if there is none. *)
Definition linked (keys next : list Z) : Prop := length next = length keys /\
  forall i, (i < length keys)%nat -> exists r, nth_error next i = Some r /\ next_same keys (-1) i r.
(** The rows of every group lie together in ascending order, [first] and [count] tell where; group 0 without rows has no first row. *)
Definition packed_by (u : Z) (keys sorted first count : list Z) : Prop :=
  histogram (u + 1) keys count /\ all_rows keys sorted /\ Z.of_nat (length first) = u + 1 /\
  (forall g, 0 <= g <= u -> In g keys -> exists f, nth_error first (Z.to_nat g) = Some f /\ 0 <= f /\ slice sorted f (count_of keys g) = rows_with keys g) /\
  (~ In 0 keys -> nth_error first 0 = Some (-1)).
