(** Choosing from two operands by a condition: Where of src/BasicMath.cpp.  No proofs in this file.
    Modelled: what happens after both operands have been converted to a common type (TwoModel.v): the addresses that are read.
    Simplified: the output array is new, so that the order of the threads does not matter; the addition of addresses modulo 2^64
    is written as addition of integers. *)
From Verif Require Import Base Mem OutModel.
Local Open Scope Z_scope.

(* the condition: address, distance of the items, number of items; a byte is true when it is not 0 *)
Record condition := Cond { cbase : Z; cstride : Z; clen : nat }.

(* WError: an exception is set; WBad: memory outside an allocation is written *)
Inductive wresult := WDone (l : list (list Z)) | WError | WBad.

(* BasicMath.cpp:3893-3911: a string scalar is copied to a buffer with the size of an output item; a number (BasicMath.cpp:2572, 2635)
   is at the start of its register *)
Definition scalar_copy (str : bool) (size : Z) (l : list Z) : option (list Z) :=
  if str then if Z.of_nat (length l) <=? size then Some (l ++ repeat 0 (Z.to_nat (size - Z.of_nat (length l)))) else None
  else Some (firstn (Z.to_nat size) l).

(* BasicMath.cpp:3935-3953 *)
Definition typed_size (s : Z) : bool := (s =? 1) || (s =? 2) || (s =? 4) || (s =? 8).

(* an operand in front of the loops: the bytes of a scalar, or the address of an array *)
Inductive source := SReg (l : list Z) | SRam (p : Z).
Definition from (m : memory) (size : Z) (s : source) (i : nat) : list Z :=
  match s with SReg l => l | SRam p => bytes_at m (p + size * Z.of_nat i) size end.
(* BasicMath.cpp:3602-3665, 3752-3804: item [i] of the output; only with two arrays and a typed size is the second array reached
   through the difference of the addresses, counted in items (3616-3625) *)
Definition choose (m : memory) (size : Z) (c : Z) (x y : source) (i : nat) : list Z :=
  match x, y with
  | SRam p, SRam q =>
      if typed_size size
      then bytes_at m (p + size * (Z.of_nat i + Z.quot (q - p) size * (if c =? 0 then 1 else 0))) size
      else if c =? 0 then from m size y i else from m size x i
  | _, _ => if c =? 0 then from m size y i else from m size x i
  end.

(* BasicMath.cpp:2595-2600, 2658-2663: an array must have as many items as the condition, if that is not empty *)
Definition length_ok (n : nat) (o : operand) : bool :=
  match o with Reg _ => true | Ram v => (n =? 0)%nat || (cnt v =? n)%nat end.
Definition prepare (str : bool) (size : Z) (o : operand) : option source :=
  match o with Reg l => option_map SReg (scalar_copy str size l) | Ram v => Some (SRam (base v)) end.
(* BasicMath.cpp:3825-3974 Where(condition, (x, y), dtype, itemsize): [size] is what the caller says, [str]: dtype is a string type *)
Definition Where (m : memory) (c : condition) (x y : operand) (str : bool) (size : Z) : wresult :=
  if length_ok (clen c) x && length_ok (clen c) y
  then match prepare str size x, prepare str size y with
       | Some sx, Some sy => WDone (map (fun i => choose m size (m (cbase c + Z.of_nat i)) sx sy i) (seq 0 (clen c)))
       | _, _ => WBad
       end
  else WError.
