(** Operations on one array: src/UnaryOps.cpp.  No proofs in this file.
    A register is the list of its lanes, lowest lane first.  Signed overflow wraps, as in MathModel.v.  The functions of the C
    library other than floor, ceil, trunc, round and sqrt are a parameter.
    Not modelled: SIGNBIT (the model's NaN has no sign). *)
From Coq Require Import SpecFloat.
From Verif Require Import RedModel.
From Verif Require Import Base Mem Par ConvModel TwoModel CmpModel MathModel.
Local Open Scope Z_scope.

Inductive uop := ABS | SIGN | NEG | NEGATIVE | LOGICAL_NOT | INVERT | ISFINITE | ISNOTFINITE | ISNAN | ISNOTNAN | ISNANORZERO
               | ISINF | ISNOTINF | ISNORMAL | ISNOTNORMAL | FLOOR | CEIL | TRUNC | ROUND | SQRT
               | CBRT | LOG | LOG10 | EXP | EXP2.

(** * One item *)

Definition fz : spec_float := S754_zero false.
Definition f1 (d : dtype) (neg : bool) : spec_float := binary_normalize (prec d) (emax d) (if neg then -1 else 1) 0 neg.
(* UnaryOps.cpp:192-196 ABS_OP, 219-223 NEG_OP; [ct]: the C type of the integers *)
Definition ABS_Z (d : dtype) (z : Z) : Z := wrapT d (if z <? 0 then - z else z).
Definition ABS_F (x : spec_float) : spec_float := if SFltb x fz then SFopp x else x.
(* UnaryOps.cpp:205-209 SIGN_OP, 213-217 FLOATSIGN_OP *)
Definition SIGN_Z (z : Z) : Z := if 0 <? z then 1 else if z <? 0 then -1 else 0.
Definition SIGN_F (d : dtype) (x : spec_float) : spec_float :=
  if SFltb fz x then f1 d false else if SFltb x fz then f1 d true else if SFeqb x x then fz else x.
(* UnaryOps.cpp:229-238 INVERT_OP, INVERT_OP_BOOL *)
Definition INVERT_Z (d : dtype) (z : Z) : Z := match d with Bool => Z.lxor z 1 | _ => wrapT d (Z.lnot z) end.
(* UnaryOps.cpp:246-290 *)
Definition isnan (x : spec_float) : bool := match x with S754_nan => true | _ => false end.
Definition isinf (x : spec_float) : bool := match x with S754_infinity _ => true | _ => false end.
Definition isnormal (d : dtype) (x : spec_float) : bool :=
  match x with S754_finite _ m _ => Z.pos (digits2_pos m) =? prec d | _ => false end.
(* the integers of the C library's floor, ceil, trunc, round (half away from zero) and of the instruction's _MM_FROUND_NINT (half to
   even), for the number n / q *)
Definition n_floor (n q : Z) : Z := n / q.
Definition n_ceil (n q : Z) : Z := - (- n / q).
Definition n_trunc (n q : Z) : Z := Z.quot n q.
Definition n_away (n q : Z) : Z := Z.sgn n * ((2 * Z.abs n + q) / (2 * q)).
Definition n_even (n q : Z) : Z :=
  let f := n / q in let r := n mod q in
  if 2 * r <? q then f else if q <? 2 * r then f + 1 else if Z.even f then f else f + 1.
Definition to_integer (d : dtype) (rnd : Z -> Z -> Z) (x : spec_float) : spec_float :=
  match x with
  | S754_finite s m e => if 0 <=? e then x else binary_normalize (prec d) (emax d) (rnd (if s then Z.neg m else Z.pos m) (2 ^ (- e))) 0 s
  | _ => x
  end.
(* UnaryOps.cpp:292-370 *)
Definition FLOOR_OP d := to_integer d n_floor.
Definition CEIL_OP d := to_integer d n_ceil.
Definition TRUNC_OP d := to_integer d n_trunc.
Definition ROUND_OP d := to_integer d n_away.
Definition SQRT_OP d := SFsqrt (prec d) (emax d).

(** * Registers *)

(* UnaryOps.cpp:537-563: abs_epi, and with the sign bit cleared *)
Definition ABS_256i (d : dtype) : list Z -> list Z := map (fun z => wrapT d (Z.abs z)).
Definition ABS_256 : list spec_float -> list spec_float := map SFabs.
(* UnaryOps.cpp:566-601: zero minus x *)
Definition NEG_256i (d : dtype) : list Z -> list Z := map (fun z => wrapT d (0 - z)).
Definition NEG_256 (d : dtype) : list spec_float -> list spec_float := map (SFsub (prec d) (emax d) fz).
(* UnaryOps.cpp:71-74, 603-656 *)
Definition ROUND_256 d := map (to_integer d n_even).
(* and with 0x7f800000 / 0x7ff0000000000000: the exponent without sign and fraction *)
Definition exponent_bits (d : dtype) (x : spec_float) : spec_float :=
  match x with
  | S754_nan | S754_infinity _ => S754_infinity false
  | S754_zero _ => fz
  | S754_finite _ m e => if isnormal d x then S754_finite false (2 ^ (Z.to_pos (prec d - 1))) e else fz
  end.
(* _CMP_NEQ_OQ: false for NaN *)
Definition cmp_neq_oq (x y : list spec_float) : list Z :=
  map2 (fun a b => if isnan a || isnan b then 0 else if SFeqb a b then 0 else -1) x y.
Definition index (n : nat) (m : list Z) : Z := Z.land (movemask m) (2 ^ Z.of_nat n - 1).
(* UnaryOps.cpp:774-862 (n = 8: float, n = 4: double) *)
Definition ISNAN_256 (n : nat) (m : list spec_float) : list Z := LUTInverse n (index n (cmp_fp EQ m m)).
(* UnaryOps.cpp:865-950 *)
Definition ISNOTNAN_256 (n : nat) (m : list spec_float) : list Z := LUT n (index n (cmp_fp EQ m m)).
(* UnaryOps.cpp:953-1043 *)
Definition ISFINITE_256 (d : dtype) (n : nat) (m : list spec_float) : list Z :=
  LUT n (index n (cmp_neq_oq (repeat (S754_infinity false) n) (map (exponent_bits d) m))).
(* UnaryOps.cpp:1047-1138 *)
Definition ISNOTFINITE_256 (d : dtype) (n : nat) (m : list spec_float) : list Z :=
  LUT n (index n (cmp_fp EQ (repeat (S754_infinity false) n) (map (exponent_bits d) m))).

(** * Kernels *)

(* [Slow]: item by item (UnaryOps.cpp:1144-1237).  [Fast w f v]: [w] items at a time, the rest item by item *)
Inductive kernel1 := Slow (f : val -> val) | Fast (out_too : bool) (w : nat) (f : val -> val) (v : list val -> list val).
(* the two arrays of a block: no gaps between the items, aligned to 32 bytes *)
Record block := Block { packed : bool; in32 : bool; out32 : bool; vals : list val }.
(* UnaryOps.cpp:663-714 UnaryOpFast (out_too), 774-1138 the others *)
Definition run1 (k : kernel1) (b : block) : list val :=
  match k with
  | Slow f => map f (vals b)
  | Fast out_too w f v =>
      if packed b && (w <=? length (vals b))%nat && in32 b && (out32 b || negb out_too)
      then concat (map v (rows w (vals b))) ++ map f (rest w (vals b))
      else map f (vals b)
  end.

Definition vF (f : spec_float -> spec_float) (x : val) : val := VF (f (as_f x)).
Definition vZ (f : Z -> Z) (x : val) : val := match x with VI z => VI (f z) | VF _ => x end.
Definition vB (f : spec_float -> bool) (x : val) : val := VI (b2z (f (as_f x))).
Definition regF (v : list spec_float -> list spec_float) (r : list val) : list val := map VF (v (map as_f r)).
Definition regB (v : list spec_float -> list Z) (r : list val) : list val := map VI (v (map as_f r)).
Definition as_z (x : val) : Z := match x with VI z => z | VF _ => 0 end.
Definition regZ (v : list Z -> list Z) (r : list val) : list val := map VI (v (map as_z r)).
(* the lanes of a register *)
Definition lanes_of (d : dtype) : nat := Z.to_nat (256 / bits d).
Definition fast32 (d : dtype) : bool := match d with F32 | F64 => true | _ => false end.

(* UnaryOps.cpp:2228-2380 GetUnaryOpFast: the type of the output and the kernel *)
Definition GetUnaryOpFast (o : uop) (d : dtype) : option (dtype * kernel1) :=
  let w := lanes_of d in
  let fl f v := if fast32 d then Some (d, Fast true w (vF f) (regF v)) else None in
  let bl f v := if fast32 d then Some (Bool, Fast false w (vB f) (regB v)) else None in
  match o with
  | ABS => match d with
           | F32 | F64 => fl ABS_F ABS_256
           | I32 | I16 | I8 => Some (d, Fast true w (vZ (ABS_Z d)) (regZ (ABS_256i d)))
           | _ => None
           end
  | ISNAN => bl isnan (ISNAN_256 w)
  | ISNOTNAN => bl (fun x => negb (isnan x)) (ISNOTNAN_256 w)
  | ISFINITE => bl isfinite (ISFINITE_256 d w)
  | ISNOTFINITE => bl (fun x => negb (isfinite x)) (ISNOTFINITE_256 d w)
  | NEG => match d with
           | F32 | F64 => fl SFopp (NEG_256 d)
           | I64 | I32 | I16 | I8 => Some (d, Fast true w (vZ (fun z => wrapT d (- z))) (regZ (NEG_256i d)))
           | _ => None
           end
  | FLOOR => fl (FLOOR_OP d) (map (FLOOR_OP d))
  | CEIL => fl (CEIL_OP d) (map (CEIL_OP d))
  | TRUNC => fl (TRUNC_OP d) (map (TRUNC_OP d))
  | ROUND => fl (ROUND_OP d) (ROUND_256 d)
  | SQRT => fl (SQRT_OP d) (map (SQRT_OP d))
  | _ => None
  end.

(* functions of the C library on floats *)
Definition library := uop -> dtype -> spec_float -> spec_float.
(* UnaryOps.cpp:1592-2208 GetUnaryOpSlow; a given output array has the right type (UnaryOps.cpp:2564-2569) *)
Definition GetUnaryOpSlow (lib : library) (o : uop) (d : dtype) : option (dtype * kernel1) :=
  let test f g := if is_float d then Some (Bool, Slow (vB f)) else Some (Bool, Slow (fun x => VI (b2z (g x)))) in
  let whole f g := if is_float d then Some (d, Slow (vF f)) else if is_signed d then Some (d, Slow (vZ g)) else None in
  let big f := match d with F64 | F80 => Some (d, Slow (vF f)) | _ => None end in
  (* the items of uint64 arrays are read as int64 (UnaryOps.cpp:2062-2063, 2089-2090, 2118-2119, 2147-2148, 2176-2177, 2205-2206) *)
  let double f := match d with
                  | I32 | U32 | I64 => Some (F64, Slow (fun x => VF (f F64 (dbl (as_z x)))))
                  | U64 => Some (F64, Slow (fun x => VF (f F64 (dbl (wrap 64 (as_z x))))))
                  | _ => None
                  end in
  match o with
  | ABS => whole ABS_F (ABS_Z d)
  | SIGN => whole (SIGN_F d) SIGN_Z
  | NEG | NEGATIVE => whole SFopp (fun z => wrapT d (- z))
  | LOGICAL_NOT => test fzero (fun x => as_z x =? 0)
  | INVERT => if is_float d then None else Some (d, Slow (vZ (INVERT_Z d)))
  | ISFINITE => test isfinite (is_valid d)
  | ISNOTFINITE => test (fun x => negb (isfinite x)) (fun x => negb (is_valid d x))
  | ISNAN => test isnan (fun x => negb (is_valid d x))
  | ISNOTNAN => test (fun x => negb (isnan x)) (is_valid d)
  | ISNANORZERO => test (fun x => SFeqb x fz || isnan x) (fun x => negb (vneq x (GetInvalid d)) || (as_z x =? 0))
  | ISINF => test isinf (fun _ => false)
  | ISNOTINF => test (fun x => negb (isinf x)) (fun _ => true)
  | ISNORMAL => test (isnormal d) (fun _ => true)
  | ISNOTNORMAL => test (fun x => negb (isnormal d x)) (fun _ => false)
  | FLOOR => big (FLOOR_OP d)
  | CEIL => big (CEIL_OP d)
  | TRUNC => big (TRUNC_OP d)
  | ROUND => big (ROUND_OP d)
  | SQRT => match d with F64 | F80 => Some (d, Slow (vF (SQRT_OP d))) | _ => double SQRT_OP end
  | CBRT => double (lib o)
  | LOG | LOG10 | EXP | EXP2 => if is_float d then Some (d, Slow (vF (lib o d))) else double (lib o)
  end.
(* UnaryOps.cpp:2412-2427 CheckMathOpOneInput *)
Definition CheckMathOpOneInput (lib : library) (o : uop) (d : dtype) : option (dtype * kernel1) :=
  match GetUnaryOpFast o d with Some k => Some k | None => GetUnaryOpSlow lib o d end.

(* UnaryOps.cpp:2484-2703 ProcessOneInput, 2449-2478: the array is cut into blocks, each given to one thread; the type and the items of the result in
   the order of the input.  [None]: left to numpy *)
Definition ProcessOneInput (lib : library) (o : uop) (d : dtype) (bs : list block) : option (dtype * list val) :=
  option_map (fun p : dtype * kernel1 => (fst p, concat (map (run1 (snd p)) bs))) (CheckMathOpOneInput lib o d).

(* UnaryOps.cpp:1291-1317, 1342-1368 ISINVALID and ISNOTINVALID of strings: the first byte of an item *)
Definition STRING_ISINVALID (item : list Z) : bool := match item with c :: _ => c =? 0 | [] => false end.
