(** What an assignment under a mask should do. *)
From Verif Require Import Base MaskModel.
Local Open Scope Z_scope.

Definition set (b : Z) : bool := negb (b =? 0).
Definition is_byte (b : Z) : Prop := 0 <= b <= 255.
(** the value for row [i]: the values are used in order, one for every row that is set *)
Definition assigned {A} (mask : list Z) (vals : list A) (i : nat) : option A :=
  match nth_error mask i with Some b => if set b then nth_error vals (countb set (firstn i mask)) else None | None => None end.
Definition assigned_scalar {A} (mask : list Z) (x : A) (i : nat) : option A :=
  match nth_error mask i with Some b => if set b then Some x else None | None => None end.
(** the items of a view *)
Definition items {A} (v : view A) : list (option A) := map (fun i => nth_error (buf v) (start v + i * stride v)) (seq 0 (len v)).
