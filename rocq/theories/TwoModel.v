(** Operations on two numeric operands: src/BasicMath.cpp (CTwoInputs, WorkTwoStubCall) and the type tables and
    scalar conversions of src/RipTide.cpp.  No proofs in this file.
    Modelled: numbers of types numpy knows by 0..13, arrays that are one-dimensional and contiguous (shapes and
    strides, and the test for overlapping memory, are in OutModel.v), Python and numpy scalars.
    Simplified: strings are left out; both operands scalar ("this case should not occur") is left out.
    As in ConvModel.v, long has 64 bits (Linux). *)
From Coq Require Import SpecFloat.
From Verif Require Import Base Mem Par ConvModel.
Local Open Scope Z_scope.

(** * The common type *)

(* RipTide.cpp:1929-1979 and 1990-2037: the larger type number [h], the smaller [l], neither is bool *)
Definition up_pair (h l : Z) : Z :=
  if h =? 10 then if Z.odd l then 12 else 10
  else if (h <? 10) && Z.even h && Z.odd l
       then if (h =? 7) || (h =? 8) then h + 3 else h + 1
       else h.
(* RipTide.cpp:1908-2042 gUpcastTable: both operands are converted to this type *)
Definition upcast (t1 t2 : Z) : Z :=
  if t1 =? 0 then t2
  else if t2 =? 0 then t1
  else if t2 <? t1 then up_pair t1 t2
  else if t1 =? t2 then t2
  else up_pair t2 t1.
(* RipTide.cpp:2045-2062 gUpcastTableComparison: comparisons leave int64 and uint64 as they are *)
Definition cmp_special (t1 t2 : Z) : bool :=
  ((t1 =? 7) && (t2 =? 8)) || ((t1 =? 8) && (t2 =? 7)) || ((t1 =? 9) && (t2 =? 10)) || ((t1 =? 10) && (t2 =? 9)).
(* RipTide.cpp:2236-2284; [cmp]: the function is one of the six comparisons *)
Definition GetUpcastType (cmp : bool) (t1 t2 : Z) : option (Z * Z) :=
  if t1 =? t2 then Some (t1, t1)
  else if (0 <=? t1) && (t1 <=? 13) && (0 <=? t2) && (t2 <=? 13)
       then Some (if cmp && cmp_special t1 t2 then (t1, t2) else (upcast t1 t2, upcast t1 t2))
       else None.

(** * Scalars *)

(* np.float64 is a Python float *)
Inductive scalar := PyBool (b : bool) | PyInt (z : Z) | PyFloat (f : spec_float)
                  | NpBool (b : bool) | NpInt (t z : Z) | NpFloat32 (f : spec_float).

(* PyLong_AsLongLongAndOverflow: the value and the overflow flag; the value is -1 on overflow *)
Definition AsLongLong (z : Z) : Z * Z :=
  if 2 ^ 63 <=? z then (-1, 1) else if z <? - 2 ^ 63 then (-1, -1) else (z, 0).

(* BasicMath.cpp:2061-2087, by number of bits *)
Definition g_signed_table (l : Z) : Z := if l <=? 7 then 1 else if l <=? 15 then 3 else if l <=? 31 then 5 else 7.
Definition g_mixedsign_table (l : Z) : Z :=
  if l <=? 7 then 1 else if l =? 8 then 2 else if l <=? 15 then 3 else if l =? 16 then 4
  else if l <=? 31 then 5 else if l =? 32 then 6 else if l <=? 63 then 7 else 8.
Definition g_bothunsigned_table (l : Z) : Z := if l <=? 8 then 2 else if l <=? 16 then 4 else if l <=? 32 then 6 else 8.

(* BasicMath.cpp:2143-2181: the type in which an integer is thought to fit, given the type of the array *)
Definition scalar_dtype (t v : Z) : Z :=
  let signed := v <? 0 in
  let v' := if signed then - (v + 1) else v in
  let l := if v' =? 0 then 0 else Z.log2 v' + 1 in
  if signed then if (0 <? t) && Z.even t then g_mixedsign_table l else g_signed_table l
  else if (0 <? t) && Z.even t then g_bothunsigned_table l else g_signed_table l.

Definition to_first (r : option (Z * Z)) (t : Z) : Z := match r with Some (c, _) => c | None => t end.
(* BasicMath.cpp:2125-2246: the type to which an array of type [t] is converted because of the other operand *)
Definition PossiblyUpcast (cmp : bool) (s : scalar) (t : Z) : Z :=
  match s with
  | PyBool b =>
      if t =? 0 then t
      else if t <=? 10 then to_first (GetUpcastType cmp t (scalar_dtype t (if b then 1 else 0))) t else t
  | PyInt z =>
      if t <=? 10 then
        let (v, overflow) := AsLongLong z in
        if overflow =? 0 then to_first (GetUpcastType cmp t (scalar_dtype t v)) t
        else if (t =? 8) || (t =? 10) then t else 12
      else t
  | PyFloat _ => if t <=? 10 then 12 else t
  | NpBool _ => if negb (0 =? t) then to_first (GetUpcastType cmp t 0) t else t
  | NpInt n _ => if negb (n =? t) then to_first (GetUpcastType cmp t n) t else t
  | NpFloat32 _ => if negb (11 =? t) then to_first (GetUpcastType cmp t 11) t else t
  end.

(* [None]: the scalar is not converted and the work is left to numpy *)
Definition unsigned_num (t : Z) : bool := (t =? 2) || (t =? 4) || (t =? 6) || (t =? 8) || (t =? 10).
(* RipTide.cpp:1190-1230: an integer given as int64 [v] and as uint64 [v2] *)
Definition scalar_int (v v2 : Z) (t : Z) : option val :=
  match of_num t with
  | Some Bool => Some (VI (wrap 8 v))
  | Some F80 | None => None
  | Some u => Some (if is_float u then VF (binary_normalize (prec u) (emax u) v 0 false)
                    else VI (if unsigned_num t then v2 mod 2 ^ bits u else wrap (bits u) v))
  end.
(* RipTide.cpp:1084-1330 *)
Definition ConvertScalarObject (s : scalar) (t : Z) : option val :=
  match s with
  | PyBool b | NpBool b => scalar_int (if b then 1 else 0) (if b then 1 else 0) t                          (* 1093-1139 *)
  | PyInt z =>                                                                                              (* 1149-1166 *)
      let (v, overflow) := AsLongLong z in
      scalar_int v (if (0 <=? v) || (overflow =? 1) then z mod 2 ^ 64 else v mod 2 ^ 64) t
  | NpInt _ z => scalar_int (wrap 64 z) (z mod 2 ^ 64) t                                                    (* 1167-1188 *)
  | PyFloat f | NpFloat32 f =>                                                                              (* 1232-1275 *)
      match of_num t with
      | Some Bool => cast I8 (VF f)
      | Some F80 | None => None
      | Some u => cast u (VF f)
      end
  end.

(* RipTide.cpp:974-1067: the only item [v], of type [t], of an array, for use as a scalar of type [u] *)
Definition ConvertSingleItemArray (v : val) (t u : Z) : option val :=
  match of_num t, of_num u with
  | Some F80, _ | None, _ | _, Some F80 | _, None => None
  | Some _, Some du =>
      let value := match v with VI z => wrap 64 z | VF f => match ftrunc f with Some z => wrap 64 z | None => - 2 ^ 63 end end in
      let fvalue := match v with VI z => binary_normalize (prec F64) (emax F64) value 0 false | VF f => f end in
      Some (match du with
            | F32 | F64 => VF (fconv du fvalue)
            | Bool => VI (wrap 8 value)
            | _ => VI (wrapT du value)
            end)
  end.

(** * The operands *)

Inductive smode := NoScalars | First | Second.
Inductive opnd := Arr (t : Z) (xs : list val) | Sca (s : scalar).
(* what the kernel gets: a scalar operand is a list of one item (in C a 256-bit register full of it) *)
Record prep := Prep { mode : smode; ty1 : Z; ty2 : Z; in1 : list val; in2 : list val }.

(* Convert.cpp:1050-1200 ConvertSafeInternal *)
Definition conv_arr (t u : Z) (xs : list val) : option (list val) :=
  match of_num t, of_num u with Some a, Some b => all_some (map (convert_safe a b) xs) | _, _ => None end.
Definition conv_if (t u : Z) (xs : list val) : option (list val) := if t =? u then Some xs else conv_arr t u xs.

(* BasicMath.cpp:2370-2391: long becomes long long *)
Definition fix_long (t : Z) : Z := if (t =? 7) || (t =? 8) then t + 2 else t.
(* RipTide.cpp:921-947 GetArrDType *)
Definition fix_longlong (t : Z) : Z := if t =? 9 then 7 else if t =? 10 then 8 else t.

(* BasicMath.cpp:2364-2435 CheckUpcast *)
Definition CheckUpcast (cmp : bool) (t1 t2 : Z) (xs ys : list val) : option prep :=
  if t1 =? t2 then Some (Prep NoScalars t1 t2 xs ys)
  else
    let a := fix_long t1 in let b := fix_long t2 in
    if a =? b then Some (Prep NoScalars a b xs ys)
    else match GetUpcastType cmp a b with
         | Some (c1, c2) =>
             match (if a =? c1 then Some xs else conv_arr t1 c1 xs), (if b =? c2 then Some ys else conv_arr t2 c2 ys) with
             | Some xs', Some ys' => Some (Prep NoScalars c1 c2 xs' ys')
             | _, _ => None
             end
         | None => None
         end.

(* BasicMath.cpp:2442-2792 CheckInputsInternal; [out]: an output array was given; [None]: punt to numpy *)
Definition CheckInputs (cmp out : bool) (a b : opnd) : option prep :=
  match a, b with
  | Sca s, Arr t ys =>                                                                   (* 2463-2496, 2549-2583 *)
      let t' := if out then t else PossiblyUpcast cmp s t in
      match conv_if t t' ys, ConvertScalarObject s t' with
      | Some ys', Some v => Some (Prep First t' t' [v] ys')
      | _, _ => None
      end
  | Arr t xs, Sca s =>                                                                   (* 2514-2543, 2619-2643 *)
      let t' := if out then t else PossiblyUpcast cmp s t in
      match conv_if t t' xs, ConvertScalarObject s t' with
      | Some xs', Some v => Some (Prep Second t' t' xs' [v])
      | _, _ => None
      end
  | Sca _, Sca _ => None
  | Arr t1 xs, Arr t2 ys =>
      if (length xs =? length ys)%nat then CheckUpcast cmp t1 t2 xs ys                   (* 2782-2788 *)
      else match xs, ys with
           | [x], _ :: _ =>                                                              (* 2687-2727 *)
               let n1 := fix_longlong t1 in
               match GetUpcastType cmp n1 t2 with
               | Some (c1, c2) =>
                   match ConvertSingleItemArray x n1 c1, conv_if t2 c2 ys with
                   | Some v, Some ys' => Some (Prep First c1 c2 [v] ys')
                   | _, _ => None
                   end
               | None => None
               end
           | _ :: _, [y] =>                                                              (* 2728-2769 *)
               let n2 := fix_longlong t2 in
               match GetUpcastType cmp t1 n2 with
               | Some (c1, c2) =>
                   match ConvertSingleItemArray y n2 c2, conv_if t1 c1 xs with
                   | Some v, Some xs' => Some (Prep Second c1 c2 xs' [v])
                   | _, _ => None
                   end
               | None => None
               end
           | _, _ => None                                                                (* 2770-2780 *)
           end
  end.

(** * Running a kernel on blocks *)

Definition map2 {A B C} (f : A -> B -> C) (xs : list A) (ys : list B) : list C := map (fun p => f (fst p) (snd p)) (combine xs ys).
Inductive outcome (A : Type) := Punt | Bad | Done (l : list A).
Arguments Punt {A}. Arguments Bad {A}. Arguments Done {A}.

Definition slice {A} (s l : nat) (xs : list A) : list A := firstn l (skipn s xs).
(* BasicMath.cpp:3044-3070: the operands of the block that starts at [s] with [l] items *)
Definition block1 (m : smode) (s l : nat) (xs : list val) : list val := match m with First => xs | _ => slice s l xs end.
Definition block2 (m : smode) (s l : nat) (ys : list val) : list val := match m with Second => ys | _ => slice s l ys end.
(* BasicMath.cpp:3025-3120 WorkTwoStubCall and BasicMathThreadCallback; [kern] computes the items of one block,
   [None] is a trap of the processor *)
Definition WorkTwo {A} (ord : sched) (threaded : bool) (kern : smode -> list val -> list val -> option (list A))
    (p : prep) (garbage : list A) : outcome A :=
  let n := match mode p with First => length (in2 p) | _ => length (in1 p) end in
  match all_some (map (fun call : nat * nat =>
          option_map (enum 1 (Z.of_nat (fst call)))
            (kern (mode p) (block1 (mode p) (fst call) (snd call) (in1 p)) (block2 (mode p) (fst call) (snd call) (in2 p))))
          (chunk_calls threaded CHUNK n)) with
  | None => Bad
  | Some wss => match writes (ord _ (concat wss)) garbage with Some l => Done l | None => Bad end
  end.
