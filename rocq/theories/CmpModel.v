(** Comparisons of two operands: src/Compare.cpp.  No proofs in this file.
    A register is the list of its lanes, lowest lane first; the result of a vector comparison has -1 (all ones) or 0
    in each lane.  The vector loops read [w] items at a time ([rows]), the rest is left to a scalar loop ([rest]). *)
From Coq Require Import SpecFloat.
From Verif Require Import RedModel.
From Verif Require Import Base Mem Par ConvModel TwoModel.
Local Open Scope Z_scope.

Inductive cop := EQ | NE | GT | GE | LT | LE.
Definition b2z (b : bool) : Z := if b then 1 else 0.

(** * Scalar comparisons *)

(* Compare.cpp:301-330 *)
Definition COMP_Z (o : cop) (x y : Z) : bool :=
  match o with EQ => x =? y | NE => negb (x =? y) | GT => y <? x | GE => y <=? x | LT => x <? y | LE => x <=? y end.
Definition COMP_F (o : cop) (x y : spec_float) : bool :=
  match o with EQ => SFeqb x y | NE => negb (SFeqb x y) | GT => SFltb y x | GE => SFleb y x | LT => SFltb x y | LE => SFleb x y end.
(* (X | Y) & 0x8000000000000000 *)
Definition top (x y : Z) : bool := Z.testbit (Z.lor x y) 63.
(* Compare.cpp:333-360: an int64 and a uint64 that is read as int64 *)
Definition COMP_int64 (o : cop) (x y : Z) : bool :=
  if top x y then match o with EQ => false | NE => true | GT => false | GE => false | LT => true | LE => true end else COMP_Z o x y.
(* Compare.cpp:363-404: a uint64 and an int64 that is read as uint64 *)
Definition COMP_uint64 (o : cop) (x y : Z) : bool :=
  if top x y then match o with EQ => false | NE => true | GT => true | GE => true | LT => false | LE => false end else COMP_Z o x y.

(** * Vector comparisons *)

Definition cmpeq (x y : list Z) : list Z := map2 (fun a b => if a =? b then -1 else 0) x y.
Definition cmpgt (x y : list Z) : list Z := map2 (fun a b => if b <? a then -1 else 0) x y.
(* _mm256_cmp_ps, _mm256_cmp_pd with _CMP_EQ_OS, _CMP_NEQ_US, _CMP_GT_OS, _CMP_GE_OS, _CMP_LT_OS, _CMP_LE_OS *)
Definition cmp_fp (o : cop) (x y : list spec_float) : list Z :=
  map2 (fun a b =>
    match a, b with
    | S754_nan, _ | _, S754_nan => match o with NE => -1 | _ => 0 end
    | _, _ => if COMP_F o a b then -1 else 0
    end) x y.
(* _mm256_movemask_ps/_pd: the sign bits, lane 0 in bit 0 *)
Fixpoint movemask (m : list Z) : Z := match m with [] => 0 | x :: r => (if x <? 0 then 1 else 0) + 2 * movemask r end.
(* RipTide.cpp:1878-1895: gBooleanLUT64 (n = 8), gBooleanLUT32 (n = 4), as the bytes in memory *)
Definition LUT (n : nat) (i : Z) : list Z := map (fun j => Z.land (Z.shiftr i (Z.of_nat j)) 1) (seq 0 n).
(* RipTide.cpp:1897-1906 *)
Definition LUTInverse (n : nat) (i : Z) : list Z := map (fun b => Z.lxor b 1) (LUT n i).

(* Compare.cpp:153-182 COMP32i_EQ.. (n = 8, index & 255), 185-216 COMP64i_EQ.. (n = 4, index & 15) *)
Definition COMP_lut (n : nat) (o : cop) (x y : list Z) : list Z :=
  let ix m := Z.land (movemask m) (2 ^ Z.of_nat n - 1) in
  match o with
  | EQ => LUT n (ix (cmpeq x y))
  | NE => LUTInverse n (ix (cmpeq x y))
  | GT => LUT n (ix (cmpgt x y))
  | LT => LUT n (ix (cmpgt y x))
  | GE => LUTInverse n (ix (cmpgt y x))
  | LE => LUTInverse n (ix (cmpgt x y))
  end.
(* Compare.cpp:219-248 COMP8i_EQ..: and/xor with 1 in each lane *)
Definition COMP_mask (o : cop) (x y : list Z) : list Z :=
  let a m := map (fun v => Z.land v 1) m in
  let ax m := map (fun v => Z.lxor (Z.land v 1) 1) m in
  match o with
  | EQ => a (cmpeq x y)
  | NE => ax (cmpeq x y)
  | GT => a (cmpgt x y)
  | LT => a (cmpgt y x)
  | GE => ax (cmpgt y x)
  | LE => ax (cmpgt x y)
  end.
(* Compare.cpp:251-298 COMP16i_EQ..: the upper half of m0 is moved to the lower half of m1, then the lower halves are
   packed with signed saturation *)
Definition sat8 (v : Z) : Z := if 127 <? v then 127 else if v <? -128 then -128 else v.
Definition COMP16 (o : cop) (x y : list Z) : list Z :=
  let m0 := COMP_mask o x y in
  let m1 := skipn 8 m0 ++ skipn 8 m0 in
  map sat8 (firstn 8 m0) ++ map sat8 (firstn 8 m1).

(* Compare.cpp:69-89 g_shuffle1..4 (k = 0..3), byte 0 first *)
Definition g_shuffle (k : nat) : list Z :=
  let half := repeat 128 (4 * k) ++ [0; 4; 8; 12] ++ repeat 128 (12 - 4 * k) in half ++ half.
(* _mm256_shuffle_epi8: within each half *)
Definition shuffle_epi8 (b m : list Z) : list Z :=
  let h (b m : list Z) := map (fun k => if 128 <=? k then 0 else nth (Z.to_nat k) b 0) m in
  h (firstn 16 b) (firstn 16 m) ++ h (skipn 16 b) (skipn 16 m).
Definition or256 (a b : list Z) : list Z := map2 Z.lor a b.
(* Compare.cpp:92 g_permute and _mm256_permutevar8x32_epi32 *)
Definition g_permute : list nat := [0; 4; 1; 5; 2; 6; 3; 7]%nat.
Definition permute32 (b : list Z) : list Z := concat (map (fun i => slice (i * 4) 4 b) g_permute).
Definition bytes32 (m : list Z) : list Z := concat (map (fun v => repeat (v mod 256) 4) m).
(* Compare.cpp:96-107 COMP32i_EQS: 32 items at once *)
Definition COMP32i_EQS (x y : list Z) : list Z :=
  let part k := shuffle_epi8 (bytes32 (cmpeq (slice (8 * k) 8 x) (slice (8 * k) 8 y))) (g_shuffle k) in
  map (fun v => Z.land v 1) (permute32 (or256 (or256 (part 0%nat) (part 1%nat)) (or256 (part 2%nat) (part 3%nat)))).

(** * Kernels *)

(* Compare.cpp:409-452 CompareAny; [rd]: the item read as type T *)
Definition CompareAny (rd : val -> Z) (f : Z -> Z -> bool) (m : smode) (xs ys : list val) : option (list Z) :=
  match m with
  | NoScalars => Some (map2 (fun x y => b2z (f (rd x) (rd y))) xs ys)
  | First => match xs with x :: _ => Some (map (fun y => b2z (f (rd x) (rd y))) ys) | [] => None end
  | Second => match ys with y :: _ => Some (map (fun x => b2z (f (rd x) (rd y))) xs) | [] => None end
  end.
(* Compare.cpp:456-519 CompareFloat, 523-585 CompareDouble, 589-646 CompareInt64, 653-725 CompareInt32S, 729-787 CompareInt32,
   791-850 CompareInt8, 854-913 CompareInt16: [w] items at a time, then one by one *)
Definition CompareVec {E} (w : nat) (rd : val -> E) (v256 : list E -> list E -> list Z) (f : E -> E -> bool)
    (m : smode) (xs ys : list val) : option (list Z) :=
  let xs := map rd xs in let ys := map rd ys in
  match m with
  | NoScalars => Some (concat (map2 v256 (rows w xs) (rows w ys)) ++ map2 (fun x y => b2z (f x y)) (rest w xs) (rest w ys))
  | First =>
      match xs with
      | x :: _ => Some (concat (map (v256 (repeat x w)) (rows w ys)) ++ map (fun y => b2z (f x y)) (rest w ys))
      | [] => None
      end
  | Second =>
      match ys with
      | y :: _ => Some (concat (map (fun r => v256 r (repeat y w)) (rows w xs)) ++ map (fun x => b2z (f x y)) (rest w xs))
      | [] => None
      end
  end.

Definition as_i (b : Z) (v : val) : Z := match v with VI z => wrap b z | VF _ => 0 end.
Definition as_u (b : Z) (v : val) : Z := match v with VI z => z mod 2 ^ b | VF _ => 0 end.
Definition as_f (v : val) : spec_float := match v with VF f => f | VI _ => S754_nan end.

Definition fp_lut (n : nat) (o : cop) (x y : list spec_float) : list Z := LUT n (Z.land (movemask (cmp_fp o x y)) (2 ^ Z.of_nat n - 1)).
Definition CompareFloat (o : cop) := CompareVec 8 as_f (fp_lut 8 o) (COMP_F o).
Definition CompareDouble (o : cop) := CompareVec 4 as_f (fp_lut 4 o) (COMP_F o).
Definition CompareInt64 (o : cop) := CompareVec 4 (as_i 64) (COMP_lut 4 o) (COMP_Z o).
Definition CompareInt32S := CompareVec 32 (as_i 32) COMP32i_EQS (COMP_Z EQ).
Definition CompareInt32 (o : cop) := CompareVec 8 (as_i 32) (COMP_lut 8 o) (COMP_Z o).
Definition CompareInt8 (o : cop) := CompareVec 32 (as_i 8) (COMP_mask o) (COMP_Z o).
Definition CompareInt16 (o : cop) := CompareVec 16 (as_i 16) (COMP16 o) (COMP_Z o).

Definition eq_ne (o : cop) : bool := match o with EQ | NE => true | _ => false end.
Definition kernel2 := smode -> list val -> list val -> option (list Z).
(* Compare.cpp:923-1202 GetComparisonOpFast; GetComparisonOpSlow (1206-1227) never finds a function *)
Definition GetComparisonOp (o : cop) (m : smode) (t1 t2 : Z) : option kernel2 :=
  if (match m with NoScalars => true | _ => false end) && negb (t1 =? t2)
     && negb ((7 <=? t1) && (t1 <=? 10) && (7 <=? t2) && (t2 <=? 10)) then None
  else
    let main := match m with First => t2 | _ => t1 end in
    if main =? 11 then Some (CompareFloat o)
    else if main =? 12 then Some (CompareDouble o)
    else if main =? 5 then Some (match o with EQ => CompareInt32S | _ => CompareInt32 o end)
    else if main =? 6 then Some (if eq_ne o then CompareInt32 o else CompareAny (as_u 32) (COMP_Z o))
    else if (main =? 7) || (main =? 9) then
      Some (if negb (t1 =? t2) && negb (Z.odd t2) then CompareAny (as_i 64) (COMP_int64 o) else CompareInt64 o)
    else if (main =? 8) || (main =? 10) then
      Some (if negb (t1 =? t2) && Z.odd t2
            then if eq_ne o then CompareAny (as_i 64) (COMP_Z o) else CompareAny (as_u 64) (COMP_uint64 o)
            else if eq_ne o then CompareInt64 o else CompareAny (as_u 64) (COMP_Z o))
    else if (main =? 0) || (main =? 1) then Some (CompareInt8 o)
    else if main =? 2 then Some (if eq_ne o then CompareInt8 o else CompareAny (as_u 8) (COMP_Z o))
    else if main =? 3 then Some (CompareInt16 o)
    else if main =? 4 then Some (if eq_ne o then CompareInt16 o else CompareAny (as_u 16) (COMP_Z o))
    else None.

(* BasicMath.cpp:3395-3485 TwoInputsInternal for a comparison without output array; [garbage]: the new array *)
Definition Compare (ord : sched) (threaded : bool) (o : cop) (a b : opnd) (garbage : list Z) : outcome Z :=
  match CheckInputs true false a b with
  | Some p => match GetComparisonOp o (mode p) (ty1 p) (ty2 p) with
              | Some k => WorkTwo ord threaded k p garbage
              | None => Punt
              end
  | None => Punt
  end.
