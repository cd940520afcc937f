(** Record arrays to columns: what the columns contain. *)
From Verif Require Import Base.

(** the field at [off] of [sz] bytes of record [r] of [isz] bytes *)
Definition field (src : list Z) (isz off sz r : nat) : list Z := firstn sz (skipn (r * isz + off) src).
(** the column of [rows] records, then what the buffer held beyond it *)
Definition column (src : list Z) (isz off sz rows : nat) (old : list Z) : list Z :=
  concat (map (field src isz off sz) (seq 0 rows)) ++ skipn (rows * sz) old.
