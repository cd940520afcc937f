(** Definitions for the theorems about GroupFromLexSort. *)
From Verif Require Import Base Mem SortModel SortSpec AllModel AllSpec EaModel EaSpec LxModel LxSpec GlModel.
Local Open Scope Z_scope.

(** The arrays: an index of integers without gaps, not longer than the values, whose elements are rows of the values. *)
Definition index_array (n : Z) (a : arg Z) : Prop := In (a_dtype a) [5; 7; 9] /\ 0 <= a_len a <= n /\ arg_ok (a_len a) a /\ gapless a /\ (a_dtype a = 5 -> a_len a < 2 ^ 31).
Definition items_array (n : Z) (size : nat) (v : arg (list Z)) : Prop := 0 <= n /\ arg_ok n v /\ gapless v /\ Forall (item size) (arg_vals [] v).
(** No filter, or one of the length of the index. *)
Definition filter_fine (n : Z) (f : param bool) : Prop := match f with PArray a => a_dtype a <> 0 \/ a_len a = n | _ => True end.
Definition long (z : Z) : Prop := - 2 ^ 63 <= z < 2 ^ 63.
(** base_index= is not given, or an integer other than 0. *)
Definition from_one (b : option Z) : Prop := match b with Some z => long z /\ z <> 0 | None => True end.
(** The type of the result: int32 or int64, as the index. *)
Definition key_type (a : arg Z) : Z := if a_dtype a =? 5 then 5 else 7.

(** The rows 0 .. n-1 in groups: rows with equal keys are those that are the same; the keys count from 1; the first row and the number of rows of each
    group, after a 0 for the group of no row. *)
Definition grouped (same : Z -> Z -> Prop) (n : Z) (keys first cnt : list Z) : Prop :=
  length keys = Z.to_nat n /\ length cnt = S (length first) /\ nth_error cnt 0 = Some 0 /\
  (forall x, 0 <= x < n -> exists q, (q < length first)%nat /\ zrd keys x = Some (Z.of_nat q + 1)) /\
  (forall x y, 0 <= x < n -> 0 <= y < n -> (zrd keys x = zrd keys y <-> same x y)) /\
  (forall q i, nth_error first q = Some i -> 0 <= i < n /\ zrd keys i = Some (Z.of_nat q + 1) /\
     (forall j, 0 <= j < n -> zrd keys j = Some (Z.of_nat q + 1) -> i <= j) /\
     nth_error cnt (S q) = Some (Z.of_nat (countb (Z.eqb (Z.of_nat q + 1)) keys))).

(** The item of a row. *)
Definition item_at (v : arg (list Z)) (x : Z) : list Z := nth (Z.to_nat x) (arg_vals [] v) [].
(** The first row of the partition of a row. *)
Definition part_start (ends : list Z) (i : Z) : Z := fold_left (fun s c => if c <=? i then c else s) ends 0.
(** The order of the rows with partitions. *)
Definition part_alike (ends : list Z) (cols : list (bool * column cell)) (x y : Z) : Prop := partition_of ends x = partition_of ends y /\ rows_alike cols x y.
Definition part_before (ends : list Z) (cols : list (bool * column cell)) (x y : Z) : Prop :=
  (partition_of ends x < partition_of ends y)%nat \/ (partition_of ends x = partition_of ends y /\ row_before cols x y).
