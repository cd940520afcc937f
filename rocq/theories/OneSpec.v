(** What an operation on every item of one array should give. *)
From Coq Require Import SpecFloat Reals.
From Flocq Require Import Core BinarySingleNaN.
From Verif Require Import RedModel.
From Verif Require Import Base ConvModel ConvSpec TwoModel MathSpec UnaryModel UnarySpec.
From Verif Require Import LayoutModel.
From Verif Require Import StackModel OneModel.
Local Open Scope Z_scope.

(* the numbers of the types in numpy *)
Definition type_number (t : dtype) (n : Z) : Prop :=
  In (t, n) [(I8, 1); (U8, 2); (I16, 3); (U16, 4); (I32, 5); (U32, 6); (I64, 7); (U64, 8); (I64, 9); (U64, 10); (F32, 11); (F64, 12)].

(* the [i]-th of the items that are [stride] bytes apart is [x] *)
Definition item_at (t : dtype) (m : list Z) (base stride : Z) (i : Z) (x : list Z) : Prop := load (base + i * stride) (size t) m = Some x.
(* [n] items that are [stride] bytes apart are in the memory *)
Definition inside (t : dtype) (m : list Z) (base stride n : Z) : Prop :=
  Forall (fun b => 0 <= b < 256) m /\ forall i, 0 <= i < n -> 0 <= base + i * stride /\ base + i * stride + size t <= len m.

(* what an operation gives for integers; an exact result that the type does not have is left open *)
Definition exact1 (u : uop) (z : Z) : option Z :=
  match u with
  | ABS => Some (Z.abs z)
  | INVERT => Some (Z.lnot z)
  | FLOOR | CEIL | TRUNC | ROUND => if Z.abs z <=? 2 ^ 53 then Some z else None
  | _ => None
  end.
(* the operation [u] has the result [y] for the item [x] *)
Definition computed (u : uop) (t : dtype) (x y : list Z) : Prop :=
  match dec t x with
  | VF _ => float_result u t (dec t x) (dec t y)
  | VI z => forall r, exact1 u z = Some r -> residue t r (dec t y)
  end.
(* the operations that are done right, and their items: not the absolute value of the smallest int32 *)
Definition right_ops (u : uop) (t : dtype) : Prop :=
  if is_float t then In u [ABS; FLOOR; CEIL; TRUNC; ROUND; SQRT]
  else (u = ABS /\ t <> I64) \/ u = INVERT \/ In u [FLOOR; CEIL; TRUNC; ROUND].
Definition right_item (u : uop) (t : dtype) (x : list Z) : Prop :=
  match dec t x with
  | VF _ => True
  | VI z => (u = ABS -> t = I32 -> z <> - 2 ^ 31) /\ (In u [FLOOR; CEIL; TRUNC; ROUND] -> Z.abs z <= 2 ^ 53)
  end.
(* one item after the other without gaps, in the order of C or of Fortran *)
Definition packed_array (l : layout) : Prop :=
  (strides l = cstrides (isz l) (dims l) \/ strides l = fstrides (isz l) (dims l)) /\ Forall (fun d => 0 < d)%nat (dims l) /\ dims l <> [].

(* the tests *)
Definition tested (o : op) (t : dtype) (x : val) : option Prop :=
  match o with
  | not_op => Some (denotes x 0)
  | isnan_op => Some (x = VF S754_nan)
  | isnotnan_op => Some (x <> VF S754_nan)
  | isfinite_op => Some (x <> VF S754_nan /\ ~ infinite x)
  | isnotfinite_op => Some (x = VF S754_nan \/ infinite x)
  | isinf_op => Some (infinite x)
  | isnotinf_op => Some (~ infinite x)
  | isnormal_op => Some (normal t x)
  | isnotnormal_op => Some (~ normal t x)
  | isnanorzero_op => Some (x = VF S754_nan \/ denotes x 0)
  | _ => None
  end.
(* the tests by the names that a caller gives *)
Definition test_of (u : uop) (x : val) : option Prop :=
  match u with
  | ISNAN => Some (x = VF S754_nan)
  | ISNOTNAN => Some (x <> VF S754_nan)
  | ISFINITE => Some (x <> VF S754_nan /\ ~ infinite x)
  | ISNOTFINITE => Some (x = VF S754_nan \/ infinite x)
  | _ => None
  end.
(* all bits are set or none *)
Definition answered (P : Prop) (y : list Z) : Prop := (P /\ Forall (fun b => b = 255) y) \/ (~ P /\ Forall (fun b => b = 0) y).

(** for examples: arrays without gaps; a library *)
Definition matrix (t : dtype) (ds : list nat) (xs : list val) : arr := Arr (new_array false ds (size t)) 0 (concat (map (enc t) xs)).
Definition vector (t : dtype) (xs : list val) : arr := matrix t [length xs] xs.
Definition no_lib : clib := fun _ _ x => x.
Definition no_junk : nat -> Z := fun _ => 0.
Definition a_half : val := VF (S754_finite false 8388608 (-24)).
Definition items_of (t : dtype) (o : outcome) : option (list val) :=
  match o with
  | NewArray a => Some (map (dec t) (chunks (prod (dims (a_lay a))) (Z.to_nat (size t)) (a_mem a)))
  | NoneFor (Some m) => Some (map (dec t) (chunks (length m / Z.to_nat (size t)) (Z.to_nat (size t)) m))
  | _ => None
  end.
