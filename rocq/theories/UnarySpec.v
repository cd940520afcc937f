(** What an operation on one array should give. *)
From Coq Require Import Reals SpecFloat.
From Flocq Require Import Core BinarySingleNaN.
From Verif Require Import RedModel.
From Verif Require Import Base ConvModel ConvSpec TwoModel TwoSpec CmpModel CmpSpec MathModel MathSpec UnaryModel.
Local Open Scope Z_scope.

(** the items of an array that is cut into blocks *)
Definition items (bs : list block) : list val := concat (map vals bs).
(** the result has type [u] and one item for each item of the array; [P] relates the two *)
Definition each (r : option (dtype * list val)) (bs : list block) (u : dtype) (P : val -> val -> Prop) : Prop :=
  exists ys, r = Some (u, ys) /\ Forall2 P (items bs) ys.
(** the operations with an exact result on real numbers *)
Definition real1 (o : uop) : option (R -> R) :=
  match o with
  | ABS => Some Rabs
  | NEG | NEGATIVE => Some Ropp
  | SIGN => Some (fun r => match Rcompare r 0 with Lt => (-1)%R | Eq => 0%R | Gt => 1%R end)
  | FLOOR => Some (fun r => IZR (Zfloor r))
  | CEIL => Some (fun r => IZR (Zceil r))
  | TRUNC => Some (fun r => IZR (Ztrunc r))
  | _ => None
  end.
(** the operations on floats *)
Definition float1 (o : uop) : bool := match o with ROUND | SQRT => true | _ => match real1 o with Some _ => true | None => false end end.
(** their results for the infinities, negative if [s] *)
Definition infinite1 (o : uop) (d : dtype) (s : bool) (y : val) : Prop :=
  match o with
  | ABS => y = VF (S754_infinity false)
  | NEG | NEGATIVE => y = VF (S754_infinity (negb s))
  | SIGN => denotes y (if s then -1 else 1)%R
  | SQRT => y = VF (if s then S754_nan else S754_infinity false)
  | _ => y = VF (S754_infinity s)
  end.
(** the result of an operation on a float [x] of type [d].  Halfway between two integers [ROUND] may give either *)
Definition float_result (o : uop) (d : dtype) (x y : val) : Prop :=
  typed d y
  /\ (forall g r, real1 o = Some g -> denotes x r -> denotes y (g r))
  /\ (o = ROUND -> forall r, denotes x r -> exists k, denotes y (IZR k) /\ (Rabs (r - IZR k) <= 1 / 2)%R)
  /\ (o = SQRT -> forall r, denotes x r -> if Rle_dec 0 r then denotes y (nearest d (sqrt r)) else y = VF S754_nan)
  /\ (x = VF S754_nan -> y = VF S754_nan)
  /\ (forall s, x = VF (S754_infinity s) -> infinite1 o d s y).
(** the operations on integers; [None]: left to numpy *)
Definition int1 (d : dtype) (o : uop) : option (Z -> Z) :=
  match o, d with
  | _, (F32 | F64 | F80) => None
  | INVERT, Bool => Some (fun z => 1 - z)
  | INVERT, _ => Some Z.lnot
  | _, (Bool | U8 | U16 | U32 | U64) => None
  | ABS, _ => Some Z.abs
  | SIGN, _ => Some Z.sgn
  | (NEG | NEGATIVE), _ => Some Z.opp
  | _, _ => None
  end.
(** the number is not subnormal *)
Definition normal (d : dtype) (x : val) : Prop :=
  match x with VI _ => True | VF _ => exists r, denotes x r /\ (bpow radix2 (2 - emax d) <= Rabs r)%R end.
Definition infinite (x : val) : Prop := exists s, x = VF (S754_infinity s).
(** the tests *)
Definition test1 (o : uop) (d : dtype) (x : val) : option Prop :=
  let missing := invalid d = Some x in
  match o with
  | LOGICAL_NOT => Some (denotes x 0)
  | ISNAN => Some missing
  | ISNOTNAN => Some (~ missing)
  | ISFINITE => Some (~ missing /\ ~ infinite x)
  | ISNOTFINITE => Some (missing \/ infinite x)
  | ISNANORZERO => Some (missing \/ denotes x 0)
  | ISINF => Some (infinite x)
  | ISNOTINF => Some (~ infinite x)
  | ISNORMAL => Some (normal d x)
  | ISNOTNORMAL => Some (~ normal d x)
  | _ => None
  end.
Definition answer1 (P : Prop) (y : val) : Prop := exists b, y = VI b /\ truth P b.
(** the functions of integers with results in double *)
Definition doubles (o : uop) : bool := match o with SQRT | CBRT | LOG | LOG10 | EXP | EXP2 => true | _ => false end.
Definition library_of (lib : library) (o : uop) : spec_float -> spec_float := match o with SQRT => SQRT_OP F64 | _ => lib o F64 end.
(** a character of a unicode item: four bytes, lowest first *)
Definition ucs4 (c : Z) : list Z := [c mod 256; c / 256 mod 256; c / 65536 mod 256; c / 16777216 mod 256].

(** for examples: 2.5; a library; a block without gaps, aligned if [a] *)
Definition two_and_half : spec_float := S754_finite false 5629499534213120 (-51).
Definition no_library : library := fun _ _ x => x.
Definition block_of (a : bool) (l : list val) : block := Block true a a l.
