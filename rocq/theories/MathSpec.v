(** What an operation on two operands should give. *)
From Coq Require Import Reals SpecFloat.
From Flocq Require Import Core BinarySingleNaN.
From Verif Require Import Base ConvModel ConvSpec TwoModel TwoSpec MathModel.
Local Open Scope Z_scope.

(** the operation gives [n] items; item [i] satisfies [P i] *)
Definition gives (r : outcome val) (n : nat) (P : nat -> val -> Prop) : Prop :=
  exists l, r = Done l /\ length l = n /\ forall i, (i < n)%nat -> exists v, nth_error l i = Some v /\ P i v.
(** the integer [z] in type [d], modulo 2^bits *)
Definition residue (d : dtype) (z : Z) (v : val) : Prop :=
  exists k, v = VI k /\ typed d (VI k) /\ k mod 2 ^ bits d = z mod 2 ^ bits d.
(** the result on integers of type [d]; [None]: left to numpy, or not an integer.  The remainder has the sign of x *)
Definition exact (d : dtype) (o : mop) (x y : Z) : option Z :=
  match o, d with
  | _, (F32 | F64 | F80) => None
  | ADD, Bool => Some (Z.max x y)
  | SUB, Bool => Some (x * (1 - y))
  | MOD, Bool => Some ((x + y) mod 2)
  | ADD, _ => Some (x + y)
  | SUB, _ => Some (x - y)
  | MUL, _ => Some (x * y)
  | (MIN | MAX), (Bool | I64 | U64) => None
  | MIN, _ => Some (Z.min x y)
  | MAX, _ => Some (Z.max x y)
  | FLOORDIV, Bool => None
  | FLOORDIV, _ => Some (if y =? 0 then 0 else x / y)
  | MOD, _ => Some (Z.rem x y)
  | LAND, Bool => Some (Z.min x y)
  | LOR, Bool => Some (Z.max x y)
  | BAND, _ => Some (Z.land x y)
  | BOR, _ => Some (Z.lor x y)
  | (BXOR | BXORS), _ => Some (Z.lxor x y)
  | BANDNOT, _ => Some (Z.land x (Z.lnot y))
  | BNOTAND, _ => Some (Z.land (Z.lnot x) y)
  | _, _ => None
  end.
(** the division is not one that stops the process *)
Definition no_trap (d : dtype) (o : mop) (x y : Z) : Prop :=
  (o = MOD -> d <> Bool -> y <> 0) /\ ((o = MOD \/ o = FLOORDIV) -> (d = I32 \/ d = I64) -> ~ (x = lo d /\ y = -1)).
(** an array in place is aligned to its item size *)
Definition aligned (d : dtype) (a : Z) : Prop := a mod (bits d / 8) = 0.
(** the number that [f] stands for is [r], rounded to type [d] *)
Definition rounded (d : dtype) (r : R) (v : val) : Prop :=
  typed d v /\ exists s, denotes v s /\ s = nearest d r.
(** rounding [r] to type [d] does not overflow *)
Definition in_range (d : dtype) (r : R) : Prop := (Rabs (nearest d r) < bpow radix2 (emax d))%R.
(** a day or time that is neither 0 nor the invalid value *)
Definition is_date (d : dtype) (x : Z) : Prop := x <> 0 /\ x <> lo d.
(** the smallest integer type that holds the integers of both types *)
Definition result_type (d1 d2 : dtype) : option dtype :=
  find (fun d => holds_integers d1 d && holds_integers d2 d) [Bool; I8; U8; I16; U16; I32; U32; I64; U64].
(** the result on real numbers *)
Definition real_op (o : mop) (r s : R) : option R :=
  match o with
  | ADD => Some (r + s)%R | SUB => Some (r - s)%R | MUL => Some (r * s)%R | DIV => Some (r / s)%R
  | MIN => Some (Rmin r s) | MAX => Some (Rmax r s)
  | _ => None
  end.
(** the output array, if there is one, is aligned *)
Definition aligned_out (d : dtype) (at_ : option Z) : Prop := match at_ with Some a => aligned d a | None => True end.
