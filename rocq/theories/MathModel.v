(** Arithmetic and bitwise operations on two operands: src/BasicMath.cpp.  No proofs in this file.
    A register is the list of its lanes, lowest lane first.  Signed overflow wraps (the vector instructions do; for the
    scalar loops it is what compilers produce, although C++ leaves it undefined).  Operations on floats are those of IEEE 754,
    rounded one by one.  Not modelled: POWER, FMOD, REMAINDER of integers, complex numbers, strings. *)
From Coq Require Import SpecFloat.
From Verif Require Import RedModel.
From Verif Require Import Base Mem Par ConvModel TwoModel CmpModel.
Local Open Scope Z_scope.

Inductive mop := ADD | SUB | MUL | MOD | MIN | MAX | DIV | FLOORDIV | SUBDATETIMES | SUBDATES
               | LAND | LOR | BAND | BOR | BXOR | BXORS | BANDNOT | BNOTAND.

(** * C integer types: [s] signed, [b] bits *)

Definition rd (s : bool) (b : Z) (v : val) : Z := if s then as_i b v else as_u b v.
Definition ct (s : bool) (b : Z) (z : Z) : Z := if s then wrap b z else z mod 2 ^ b.
(* the bytes of a result, as an item of type [d] *)
Definition put (d : dtype) (z : Z) : val := VI (wrapT d z).

(** * Operations on two items *)

(* BasicMath.cpp:157-180 AddOp, SubOp, MulOp *)
Definition AddOp (s : bool) (b x y : Z) : Z := ct s b (x + y).
Definition SubOp (s : bool) (b x y : Z) : Z := ct s b (x - y).
Definition SubOp_bool (x y : Z) : Z := if (x =? 1) && (y =? 0) then 1 else 0.
Definition MulOp (s : bool) (b x y : Z) : Z := ct s b (x * y).
(* BasicMath.cpp:202-209, 227-234 *)
Definition MinOp (x y : Z) : Z := if y <? x then y else x.
Definition MaxOp (x y : Z) : Z := if x <? y then y else x.
(* BasicMath.cpp:186-201, 211-226: a NaN wins *)
Definition fne (x y : spec_float) : bool := negb (SFeqb x y).
Definition MinOpF (x y : spec_float) : spec_float := if SFltb y x || fne y y then y else x.
Definition MaxOpF (x y : spec_float) : spec_float := if SFltb x y || fne y y then y else x.
(* BasicMath.cpp:241-245 DivOp: as double *)
Definition dbl (z : Z) : spec_float := binary_normalize (prec F64) (emax F64) z 0 false.
Definition DivOp (x y : Z) : spec_float := SFdiv (prec F64) (emax F64) (dbl x) (dbl y).
(* BasicMath.cpp:253-272 SubDateTimeOp, 275-293 SubDatesOp *)
Definition nodate (b x : Z) : bool := (x =? 0) || (x =? - 2 ^ (b - 1)).
Definition SubDateTimeOp (b x y : Z) : spec_float := if nodate b x || nodate b y then S754_nan else dbl (wrap b (x - y)).
Definition SubDatesOp (b x y : Z) : Z := if nodate b x || nodate b y then 0 else wrap b (x - y).
(* x / y and x % y: narrow types are computed as int; [None]: the processor traps *)
Definition c_traps (s : bool) (b x y : Z) : bool := (y =? 0) || (s && (32 <=? b) && (x =? - 2 ^ (b - 1)) && (y =? -1)).
Definition c_div (s : bool) (b x y : Z) : option Z := if c_traps s b x y then None else Some (ct s b (Z.quot x y)).
Definition c_rem (s : bool) (b x y : Z) : option Z := if c_traps s b x y then None else Some (ct s b (Z.rem x y)).
(* BasicMath.cpp:295-311 FloorDivOp *)
Definition FloorDivOp (s : bool) (b x y : Z) : option Z :=
  if negb (y =? 0) then
    if Bool.eqb (x <? 0) (y <? 0) then c_div s b x y
    else match c_div s b x y, c_rem s b x y with
         | Some q, Some r => Some (if negb (r =? 0) then ct s b (q - 1) else q)
         | _, _ => None
         end
  else Some 0.
(* floor of the C library *)
Definition sfloor (d : dtype) (f : spec_float) : spec_float :=
  match f with
  | S754_finite s m e =>
      if 0 <=? e then f
      else binary_normalize (prec d) (emax d) ((if s then Z.neg m else Z.pos m) / 2 ^ (- e)) 0 s
  | _ => f
  end.
(* BasicMath.cpp:312-335 FloorDivOp of floats *)
Definition FloorDivF (d : dtype) (x y : spec_float) : spec_float :=
  if SFeqb y y then sfloor d (SFdiv (prec d) (emax d) x y) else S754_nan.
(* BasicMath.cpp:394-408 REMAINDER_OP *)
Definition REMAINDER_OP (d : dtype) (x y : spec_float) : spec_float :=
  let p := prec d in let q := emax d in SFsub p q x (SFmul p q y (sfloor d (SFdiv p q x y))).
(* BasicMath.cpp:443-463 AndOp, XorOp, OrOp, AndNotOp *)
Definition AndNotOp (x y : Z) : Z := Z.land (Z.lnot x) y.

(** * Operations on registers *)

(* _mm256_add_epi8.., _mm256_sub_epi8.., _mm256_mullo_epi16/32 *)
Definition lanes (s : bool) (b : Z) (f : Z -> Z -> Z) (x y : list Z) : list Z := map2 (fun a c => ct s b (f a c)) x y.
(* _mm256_mul_epu32: the lower halves of 64-bit lanes *)
Definition mul_epu32 (a c : Z) : Z := (a mod 2 ^ 32) * (c mod 2 ^ 32).
(* BasicMath.cpp:535-552 MUL_OP_256u64, one lane *)
Definition mul_u64 (x y : Z) : Z :=
  let lo1 := Z.land x 4294967295 in let lo2 := Z.land y 4294967295 in
  let hi1 := Z.shiftr x 32 in let hi2 := Z.shiftr y 32 in
  let add1 := mul_epu32 lo1 lo2 in
  let add2 := Z.shiftl (mul_epu32 lo1 hi2) 32 mod 2 ^ 64 in
  let add3 := Z.shiftl (mul_epu32 lo2 hi1) 32 mod 2 ^ 64 in
  (add1 + (add2 + add3) mod 2 ^ 64) mod 2 ^ 64.

(** * Kernels *)

(* the output array is the first operand: its address (blocks start at multiples of 16384 items, which changes nothing
   modulo 32); [None]: a new array *)
Definition kernelA := option Z -> smode -> list val -> list val -> option (list val).

(* BasicMath.cpp:618-666 SimpleMathOpSlow, 670-718 SimpleMathOpSlowDouble *)
Definition SimpleMathOpSlow {E} (get : val -> E) (f : E -> E -> option val) : kernelA := fun _ m xs ys =>
  let xs := map get xs in let ys := map get ys in
  match m with
  | NoScalars => all_some (map2 f xs ys)
  | First => match xs with x :: _ => all_some (map (f x) ys) | [] => None end
  | Second => match ys with y :: _ => all_some (map (fun x => f x y) xs) | [] => None end
  end.

(* the vector loop with a second operand in a register, then the rest *)
Definition vec_scalar {E} (sym : bool) (w : nat) (f : E -> E -> E) (v : list E -> list E -> list E) (xs : list E) (y : E) : list E :=
  concat (map (fun r => if sym then v (repeat y w) r else v r (repeat y w)) (rows w xs)) ++ map (fun x => f x y) (rest w xs).
(* BasicMath.cpp:722-903 SimpleMathOpFast (sym = false), 915-1098 SimpleMathOpFastSymmetric (sym = true); in place
   (821-864, 1012-1056) the items before a multiple of 32 bytes are done one by one, then the loads and stores must be aligned *)
Definition SimpleMathOpFast {E} (sym : bool) (w : nat) (size : Z) (get : val -> E) (put : E -> val)
    (f : E -> E -> E) (v : list E -> list E -> list E) : kernelA := fun at_ m xs ys =>
  let xs := map get xs in let ys := map get ys in
  option_map (map put)
    match m with
    | NoScalars => Some (concat (map2 v (rows w xs) (rows w ys)) ++ map2 f (rest w xs) (rest w ys))
    | First => match xs with
               | x :: _ => Some (concat (map (v (repeat x w)) (rows w ys)) ++ map (f x) (rest w ys))
               | [] => None
               end
    | Second =>
        match ys with
        | [] => None
        | y :: _ =>
            match at_ with
            | None => Some (vec_scalar sym w f v xs y)
            | Some a =>
                let babylen := if Z.land a 31 =? 0 then 0 else (32 - Z.land a 31) / size in
                let k := if babylen <=? Z.of_nat (length xs) then Z.to_nat babylen else 0%nat in
                if (w <=? length xs - k)%nat && negb ((a + Z.of_nat k * size) mod 32 =? 0) then None
                else Some (map (fun x => f x y) (firstn k xs) ++ vec_scalar sym w f v (skipn k xs) y)
            end
        end
    end.

(* reading [n] items from a register full of [s]; [None]: past its end *)
Definition from_register {E} (w : nat) (s : E) (n : nat) : option (list E) := if (n <=? w)%nat then Some (repeat s n) else None.
(* BasicMath.cpp:907-911 SimpleMathOpFastReverse: the operands are exchanged, the scalar mode is not *)
Definition SimpleMathOpFastReverse {E} (w : nat) (size : Z) (get : val -> E) (put : E -> val)
    (f : E -> E -> E) (v : list E -> list E -> list E) : kernelA := fun at_ m xs ys =>
  match m, xs, ys with
  | NoScalars, _, _ => SimpleMathOpFast false w size get put f v None NoScalars ys xs
  | First, s :: _, y :: _ =>
      option_map (fun r => map put (concat (map (v (firstn w (map get ys))) (rows w r)) ++ map (f (get y)) (rest w r)))
        (from_register w (get s) (length ys))
  | Second, x :: _, s :: _ =>
      option_map (fun r => map put (concat (map (fun q => v q (firstn w (map get xs))) (rows w r)) ++ map (fun a => f a (get x)) (rest w r)))
        (from_register w (get s) (length xs))
  | _, _, _ => Some []
  end.

(* BasicMath.cpp:1102-1174 SimpleMathOpFastDouble: four items at a time if no operand is a scalar *)
Definition SimpleMathOpFastDouble : kernelA := fun _ m xs ys =>
  let xs := map (rd true 32) xs in let ys := map (rd true 32) ys in
  let v x y := map2 (SFdiv (prec F64) (emax F64)) (map dbl x) (map dbl y) in
  option_map (map VF)
    match m with
    | NoScalars => Some (concat (map2 v (rows 4 xs) (rows 4 ys)) ++ map2 DivOp (rest 4 xs) (rest 4 ys))
    | First => match xs with x :: _ => Some (map (DivOp x) ys) | [] => None end
    | Second => match ys with y :: _ => Some (map (fun x => DivOp x y) xs) | [] => None end
    end.

(** * Choosing the kernel *)

Definition width (d : dtype) : nat := Z.to_nat (256 / bits d).
Definition ifast (sym s : bool) (d : dtype) (f : Z -> Z -> Z) (v : list Z -> list Z -> list Z) : kernelA :=
  SimpleMathOpFast sym (width d) (bits d / 8) (rd s (bits d)) (put d) f v.
Definition ffast (sym : bool) (d : dtype) (f : spec_float -> spec_float -> spec_float) : kernelA :=
  SimpleMathOpFast sym (width d) (bits d / 8) as_f VF f (map2 f).
Definition islow (d : dtype) (f : Z -> Z -> option Z) : kernelA :=
  SimpleMathOpSlow (rd (is_signed d) (bits d)) (fun x y => option_map (put d) (f x y)).
Definition fslow (f : spec_float -> spec_float -> spec_float) : kernelA := SimpleMathOpSlow as_f (fun x y => Some (VF (f x y))).

(* BasicMath.cpp:1274-1602 GetSimpleMathOpFast *)
Definition GetSimpleMathOpFast (o : mop) (d : dtype) : option kernelA :=
  let b := bits d in let p := prec d in let q := emax d in
  match o, d with
  | ADD, Bool => Some (ifast true true d Z.lor (map2 Z.lor))
  | ADD, (F32 | F64) => Some (ffast true d (SFadd p q))
  | ADD, (I8 | I16 | I32 | I64) => Some (ifast true true d (AddOp true b) (lanes true b Z.add))
  | MUL, Bool => Some (ifast true true d Z.land (map2 Z.land))
  | MUL, (F32 | F64) => Some (ffast true d (SFmul p q))
  | MUL, (I16 | I32) => Some (ifast true true d (MulOp true b) (lanes true b Z.mul))
  | MUL, U64 => Some (ifast true false d (MulOp false b) (map2 mul_u64))
  | SUB, (F32 | F64) => Some (ffast false d (SFsub p q))
  | SUB, (I8 | I16 | I32 | I64) => Some (ifast false true d (SubOp true b) (lanes true b Z.sub))
  | MIN, (F32 | F64) => Some (fslow MinOpF)
  | MIN, (I8 | I16 | I32) => Some (ifast true true d MinOp (map2 Z.min))
  | MIN, (U8 | U16 | U32) => Some (ifast true false d MinOp (map2 Z.min))
  | MAX, (F32 | F64) => Some (fslow MaxOpF)
  | MAX, (I8 | I16 | I32) => Some (ifast true true d MaxOp (map2 Z.max))
  | MAX, (U8 | U16 | U32) => Some (ifast true false d MaxOp (map2 Z.max))
  | DIV, (F32 | F64) => Some (ffast false d (SFdiv p q))
  | DIV, I32 => Some SimpleMathOpFastDouble
  | LAND, Bool => Some (ifast true true d Z.land (map2 Z.land))
  | LOR, Bool => Some (ifast true true d Z.lor (map2 Z.lor))
  | BAND, (Bool | I8 | U8 | I16 | U16 | I32 | U32 | I64 | U64) => Some (ifast true true d Z.land (map2 Z.land))
  | BOR, (Bool | I8 | U8 | I16 | U16 | I32 | U32 | I64 | U64) => Some (ifast true true d Z.lor (map2 Z.lor))
  | (BXOR | BXORS), (Bool | I8 | U8 | I16 | U16 | I32 | U32 | I64 | U64) => Some (ifast true true d Z.lxor (map2 Z.lxor))
  | BANDNOT, (Bool | I8 | U8 | I16 | U16 | I32 | U32 | I64 | U64) =>
      Some (SimpleMathOpFastReverse (width d) (b / 8) (rd true b) (put d) AndNotOp (map2 AndNotOp))
  | BNOTAND, (Bool | I8 | U8 | I16 | U16 | I32 | U32 | I64 | U64) => Some (ifast false true d AndNotOp (map2 AndNotOp))
  | _, _ => None
  end.
(* BasicMath.cpp:1607-1938 GetSimpleMathOpSlow; the narrow types of FLOORDIV are not compiled with clang (1823-1833) *)
Definition GetSimpleMathOpSlow (o : mop) (d : dtype) : option kernelA :=
  let s := is_signed d in let b := bits d in let p := prec d in let q := emax d in
  match o, d with
  | ADD, Bool => Some (islow d (fun x y => Some (Z.lor x y)))
  | ADD, (F32 | F64 | F80) => Some (fslow (SFadd p q))
  | ADD, _ => Some (islow d (fun x y => Some (AddOp s b x y)))
  | SUB, Bool => Some (islow d (fun x y => Some (SubOp_bool x y)))
  | SUB, (F32 | F64 | F80) => Some (fslow (SFsub p q))
  | SUB, _ => Some (islow d (fun x y => Some (SubOp s b x y)))
  | MUL, Bool => None
  | MUL, (F32 | F64 | F80) => Some (fslow (SFmul p q))
  | MUL, _ => Some (islow d (fun x y => Some (MulOp s b x y)))
  | DIV, (F32 | F64) => Some (fslow (SFdiv p q))
  | DIV, F80 => Some (fslow (fun x y => SFdiv (prec F64) (emax F64) (fconv F64 x) (fconv F64 y)))
  | DIV, _ => Some (SimpleMathOpSlow (rd s b) (fun x y => Some (VF (DivOp x y))))
  | SUBDATETIMES, (I32 | I64) => Some (SimpleMathOpSlow (rd s b) (fun x y => Some (VF (SubDateTimeOp b x y))))
  | SUBDATES, (I32 | I64) => Some (islow d (fun x y => Some (SubDatesOp b x y)))
  | FLOORDIV, Bool => None
  | FLOORDIV, (F32 | F64 | F80) => Some (fslow (FloorDivF d))
  | FLOORDIV, _ => Some (islow d (FloorDivOp s b))
  | MOD, Bool => Some (islow d (fun x y => Some (Z.lxor x y)))
  | MOD, (F32 | F64 | F80) => Some (fslow (REMAINDER_OP d))
  | MOD, _ => Some (islow d (c_rem s b))
  | _, _ => None
  end.

(* BasicMath.cpp:1945-1965 *)
Definition GetNonAmbiguousDtype (t : Z) : Z := if t =? 7 then 9 else if t =? 8 then 10 else t.
(* the type of the result *)
Definition wantedOutType (o : mop) (m : smode) (t1 t2 : Z) : Z :=
  let main := match m with First => t2 | _ => t1 end in
  match o with
  | DIV => if main =? 11 then 11 else 12
  | SUBDATETIMES => 12
  | SUBDATES => if main =? 5 then 5 else 7
  | BXORS => t1
  | _ => main
  end.
(* BasicMath.cpp:1969-2059 CheckMathOpTwoInputs *)
Definition CheckMathOpTwoInputs (o : mop) (m : smode) (t1 t2 : Z) : option kernelA :=
  if (match m with NoScalars => true | _ => false end) && negb (GetNonAmbiguousDtype t1 =? GetNonAmbiguousDtype t2) then None
  else match of_num (match o, m with BXORS, _ => t1 | _, First => t2 | _, _ => t1 end) with
       | Some d => match GetSimpleMathOpFast o d with Some k => Some k | None => GetSimpleMathOpSlow o d end
       | None => None
       end.

(* BasicMath.cpp:3395-3485 TwoInputsInternal; [at_]: the address of the first operand if it is also the output array (a += b).
   2820-2843: an output array of another type is replaced by a new array, one that is too short is refused.
   [garbage]: the output array before *)
Definition Math (ord : sched) (threaded : bool) (o : mop) (at_ : option Z) (a b : opnd) (garbage : list val) : outcome val :=
  match CheckInputs false (match at_ with Some _ => true | None => false end) a b with
  | Some p =>
      match CheckMathOpTwoInputs o (mode p) (ty1 p) (ty2 p) with
      | Some k =>
          let same := match a with Arr t _ => t =? wantedOutType o (mode p) (ty1 p) (ty2 p) | Sca _ => false end in
          match at_, mode p with
          | Some _, First => if same then Punt else WorkTwo ord threaded (k None) p garbage
          | _, _ => WorkTwo ord threaded (k (if same then at_ else None)) p garbage
          end
      | None => Punt
      end
  | None => Punt
  end.
