(** Specification of a division of [0, n) into contiguous bands. *)
From Verif Require Import Base.

(** [bands] starts at [lo], each band begins where the previous one ended, the last ends at [hi]. *)
Fixpoint contiguous (lo hi : Z) (bands : list (Z * Z)) : Prop :=
  match bands with
  | [] => lo = hi
  | (l, h) :: rest => l = lo /\ (l < h)%Z /\ contiguous h hi rest
  end.

Definition band_size (b : Z * Z) : Z := (snd b - fst b)%Z.
Definition inband (i : Z) (b : Z * Z) : Prop := (fst b <= i < snd b)%Z.
