(** Specification of boolean-mask selection, fancy indexing and shuffles (no threads, no chunks). *)
From Verif Require Import Base Mem.
Local Open Scope Z_scope.

(** Buffers hold bytes. *)
Definition bytes (mb : Z -> Z) : Prop := forall p, 0 <= mb p < 256.

(** Element [i] of a mask with the given byte stride is True. *)
Definition mask_true (mb : Z -> Z) (stride : Z) (i : nat) : bool := negb (mb (Z.of_nat i * stride) =? 0).

(** Positions of the True (False) elements among the first [len], ascending. *)
Definition true_positions (mb : Z -> Z) (stride : Z) (len : nat) : list nat := filter (mask_true mb stride) (seq 0 len).
Definition false_positions (mb : Z -> Z) (stride : Z) (len : nat) : list nat :=
  filter (fun i => negb (mask_true mb stride i)) (seq 0 len).

(** values[index] with Python's negative indexing, [dflt] when out of range. *)
Definition py_get {A} (vals : list A) (dflt : A) (index : Z) : A :=
  let n := Z.of_nat (length vals) in
  if 0 <=? index then nth (Z.to_nat index) vals dflt
  else if - n <=? index then nth (Z.to_nat (index + n)) vals dflt
  else dflt.

(** Values a [w]-bit signed / unsigned integer can hold. *)
Definition fits_signed (w v : Z) : Prop := - 2 ^ (w - 1) <= v < 2 ^ (w - 1).
Definition fits_unsigned (w v : Z) : Prop := 0 <= v < 2 ^ w.

(** Index values that a [w]-bit index array can hold: any value of a signed type; for unsigned types the
    values below 2^(w-1). *)
Definition index_in_range (unsigned : bool) (w i : Z) : Prop :=
  if unsigned then 0 <= i < 2 ^ (w - 1) else - 2 ^ (w - 1) <= i < 2 ^ (w - 1).

(** Start of partition [t] given the ends of the partitions. *)
Definition part_lo (cut : list Z) (t : nat) : Z := match t with O => 0 | S t' => nth t' cut 0 end.

(** The new key of a row with (1-based) key [index] whose uniques start at [start]; 0 = filtered out. *)
Definition remapped (w : Z) (ukey : list Z) (start index : Z) : Z :=
  if (index <=? 0) || (Z.max 0 (Z.of_nat (length ukey) - start) <? index) then 0
  else wrap w (nth (Z.to_nat (start + (index - 1))) ukey 0).
