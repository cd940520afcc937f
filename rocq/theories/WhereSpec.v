(** What choosing from two operands should give. *)
From Verif Require Import Base Mem OutModel WhereModel.
Local Open Scope Z_scope.

(** item [i] of an operand, as an item of [size] bytes; a shorter string is filled up with zeros *)
Definition value_at (m : memory) (size : Z) (o : operand) (i : nat) : list Z :=
  match o with
  | Reg l => firstn (Z.to_nat size) (l ++ repeat 0 (Z.to_nat size))
  | Ram v => let l := bytes_at m (base v + isz v * Z.of_nat i) (isz v) in firstn (Z.to_nat size) (l ++ repeat 0 (Z.to_nat size))
  end.
Definition chosen (m : memory) (c : condition) (x y : operand) (size : Z) (i : nat) : list Z :=
  if m (cbase c + cstride c * Z.of_nat i) =? 0 then value_at m size y i else value_at m size x i.
(** the operand has the item size the caller gives, a scalar is not longer than it *)
Definition sized (str : bool) (size : Z) (o : operand) : Prop :=
  match o with Reg l => if str then Z.of_nat (length l) <= size else size <= Z.of_nat (length l) | Ram v => isz v = size end.
(** the arrays are a whole number of items apart *)
Definition aligned (size : Z) (x y : operand) : Prop :=
  match x, y with Ram v, Ram w => (size | base w - base v) | _, _ => True end.
(** an operand that goes with a condition of [n] items: an array has as many, unless the condition is empty *)
Definition goes_with (n : nat) (o : operand) : Prop := match o with Reg _ => True | Ram v => n = 0%nat \/ cnt v = n end.
