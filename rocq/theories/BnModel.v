(** Model of the functions of /repo/src/Bins.cpp from their arguments to their results: BinsToCutsBSearch, NanInfCountFromSort, BinsToCutsSorted,
    ReIndex and ReMapIndex: the checks of the arguments, the choice of the function for the types of the arrays and the call.  The loops are those of
    BinsModel, the arrays those of EaModel.
    Simplified: arrays have one dimension; memory can always be had; the edges of bins are finite; what [BinsModel] says of numbers: finite ones
    are integers in some unit.  A call with an error that returns None counts as an error.  No proofs in this file. *)
From Verif Require Import Base Mem Par Num AllModel EaModel.
From Verif Require BinsModel WnModel.
Local Open Scope Z_scope.

(** ** Types *)
(* Bins.cpp:1553-1592 (and the copies 1597-1636, 1641-1680, 423-462, 643-682): T *)
Definition value_type (d : Z) : option ctype :=
  match d with
  | 0 | 1 => Some (CI 1) | 3 => Some (CI 2) | 5 => Some (CI 4) | 7 | 9 => Some (CI 8)
  | 2 => Some (CU 1) | 4 => Some (CU 2) | 6 => Some (CU 4) | 8 | 10 => Some (CU 8)
  | 11 => Some (CF 4) | 12 => Some (CF 8) | 13 => Some (CF 16)
  | _ => None
  end.
(* Bins.cpp:1691-1719: BINTYPE *)
Definition bin_type (d : Z) : option ctype :=
  match d with
  | 1 => Some (CI 1) | 3 => Some (CI 2) | 5 => Some (CI 4) | 7 | 9 => Some (CI 8) | 8 | 10 => Some (CU 8)
  | 11 => Some (CF 4) | 12 => Some (CF 8)
  | _ => None
  end.
(* NPY_FLOAT, NPY_DOUBLE, NPY_LONGDOUBLE *)
Definition is_float (d : Z) : bool := (d =? 11) || (d =? 12) || (d =? 13).
(* RipTide.cpp:2101-2114 and 2121-2180 *)
Definition default_of (d : Z) : Z :=
  match d with
  | 1 => - 2 ^ 7 | 3 => - 2 ^ 15 | 5 => - 2 ^ 31 | 7 | 9 => - 2 ^ 63
  | 2 => 255 | 4 => 65535 | 6 => 4294967295 | 8 | 10 => 18446744073709551615
  | _ => 0
  end.
(* the type number of the output: Bins.cpp:1749-1762, 1796-1810 and 725-738 *)
Definition out_dtype (n : Z) : Z :=
  let w := BinsModel.out_bits n in if w =? 8 then 1 else if w =? 16 then 3 else if w =? 32 then 5 else 7.
(* an argument parsed as a C int *)
Definition int32_ok (z : Z) : bool := (- 2 ^ 31 <=? z) && (z <? 2 ^ 31).

(* MultiKey.cpp:205-262 with checkrows and convert: arrays with gaps are copied; an array of one element whose stride is not its item size is refused *)
Definition mlp_read {X} (a : arg X) : outcome (list X) :=
  if WnModel.contiguous a then if (a_step a =? 1) || (a_len a <=? 0) then undef (read_arg a) else Error
  else undef (WnModel.copy_arg a).

Section Numbers.
  (* numbers are multiples of 1 / unit; round b: conversion to a floating point type of b bytes *)
  Context (unit : Z) (round : Z -> Z -> Z).
  (* a C++ conversion.  Simplified: a number that is out of range wraps around *)
  Definition to_type (T : ctype) (z : Z) : Z := match T with CF b => round b z | _ => wrapT T (Z.quot z unit) * unit end.

  (** ** BinsToCutsBSearch *)
  (* numbers and edges, or items of text of [size] bytes and edges of text *)
  Inductive input := Nums (a : arg fl) (bins : arg Z) | Texts (size : Z) (a bins : arg (list Z)).
  (* Bins.cpp:1551, 1595 and 1639 *)
  Inductive search := Cut | SearchLeft | SearchRight.
  Definition search_fun (mode : Z) : option search := match mode with 0 => Some Cut | 1 => Some SearchLeft | 2 => Some SearchRight | _ => None end.
  (* Bins.cpp:1387 isfinite; 1482 value != defaultNan *)
  Definition worth (d : Z) (v : fl) : bool := if is_float d then is_finite v else negb (feq v (Fin (default_of d * unit))).
  (* Bins.cpp:1734-1955.  The last edge is read also if there is no value.  The mode is not looked at for text; for unicode the output is not written *)
  Definition BinsToCutsBSearch (ord : sched) (threads : bool) (chunk : nat) (junk : Z) (x : input) (mode : Z) : outcome (Z * list Z) :=
    if negb (int32_ok mode) then Error
    else match x with
    | Nums a bins =>
        match search_fun mode, value_type (a_dtype a), bin_type (a_dtype bins) with
        | Some f, Some T, Some B =>
            obind (undef (read_arg a)) (fun vals =>
            obind (undef (read_arg bins)) (fun edges =>
            if a_len bins <=? 0 then Undefined
            else
              obind (undef match f with
                           | Cut => BinsModel.CutBSearch (to_type T) (to_type B) (worth (a_dtype a)) ord threads chunk vals edges junk
                           | SearchLeft => BinsModel.SearchSorted (to_type T) (to_type B) false ord threads chunk vals edges junk
                           | SearchRight => BinsModel.SearchSorted (to_type T) (to_type B) true ord threads chunk vals edges junk
                           end) (fun r => Done (out_dtype (a_len bins), r))))
        | _, _, _ => Error
        end
    | Texts size a bins =>
        if (a_dtype a =? a_dtype bins) && ((a_dtype a =? 18) || (a_dtype a =? 19)) then
          if a_dtype a =? 18 then
            obind (undef (read_arg a)) (fun vals =>
            obind (undef (read_arg bins)) (fun edges =>
            obind (undef (BinsModel.CutString ord threads chunk (concat vals) size (length vals) edges junk)) (fun r => Done (out_dtype (a_len bins), r))))
          else Done (out_dtype (a_len bins), repeat junk (Z.to_nat (a_len a)))
        else Error
    end.

  (** ** NanInfCountFromSort *)
  Definition index_type (d : Z) : bool := (d =? 5) || (d =? 7) || (d =? 9).
  (* Bins.cpp:342-413: (nancount, posInfCount, negInfCount) *)
  Definition counts (d : Z) (vs : list fl) : Z * Z * Z :=
    let default v := feq v (Fin (default_of d * unit)) in
    if is_float d then let '(n, p, m) := BinsModel.NanInfCount vs in (Z.of_nat n, Z.of_nat p, Z.of_nat m)
    else if 0 <? d then
      if Z.odd d then (0, 0, Z.of_nat (BinsModel.count_while default vs)) else (0, Z.of_nat (BinsModel.count_while default (rev vs)), 0)
    else (0, 0, 0).
  (* Bins.cpp:470-515.  Simplified: rows of the index outside of the values are undefined also if they are not reached.
     The counter from the front is an int *)
  Definition NanInfCountFromSort (a : arg fl) (idx : arg Z) : outcome (option (Z * Z * Z)) :=
    obind (mlp_read a) (fun vals =>
    obind (mlp_read idx) (fun ix =>
    if negb (a_len a =? a_len idx) then Error
    else if index_type (a_dtype idx) then
      match value_type (a_dtype a) with
      | Some _ => obind (undef (all_some (map (zrd vals) ix))) (fun vs =>
                  let '(n, p, m) := counts (a_dtype a) vs in if 2 ^ 31 <=? m then Undefined else Done (Some (n, p, m)))
      | None => Done None
      end
    else Done None)).

  (** ** BinsToCutsSorted *)
  (* (double) *)
  Definition to_double (v : fl) : fl := match v with Fin z => Fin (to_type (CF 8) z) | _ => v end.
  (* Bins.cpp:693-815.  Nothing is checked of the counts and of the length of the index; every element of the index up to the number of values is read *)
  Definition BinsToCutsSorted (junk : Z) (a : arg fl) (bins idx : arg Z) (counted : Z * Z * Z) (mode : Z) : outcome (option (Z * list Z)) :=
    let '(nan, pos, neg) := counted in
    if negb (int32_ok mode) then Error
    else if negb (int64_ok nan && int64_ok pos && int64_ok neg) then Error
    else if negb (a_dtype bins =? 12) then Error
    else if index_type (a_dtype idx) then
      match value_type (a_dtype a) with
      | Some _ =>
          obind (undef (read_arg a)) (fun vals =>
          obind (undef (read_arg bins)) (fun edges =>
          obind (undef (read_arg (mkArg (a_dtype idx) (a_mem idx) (a_start idx) 1 (a_len a)))) (fun ix =>
          if (nan + pos <? 0) || (neg <? 0) || (a_len a <? nan + pos) || (a_len a <? neg) then Undefined
          else obind (undef (BinsModel.MakeBinsSorted (map to_double vals) edges ix (Z.to_nat (nan + pos)) 0 (Z.to_nat neg) (repeat junk (length vals))))
                 (fun r => Done (Some (out_dtype (a_len bins), r))))))
      | None => Done None
      end
    else Done None.
End Numbers.

(** ** ReIndex *)
(* Bins.cpp:81-106: the width of the type through which the index is read *)
Definition index_bits (d : Z) : option Z := match d with 5 | 6 => Some 32 | 7 | 8 | 9 | 10 => Some 64 | _ => None end.
(* Bins.cpp:161-222 and Sort.h:49-91.  17: arrays of objects *)
Definition ReIndexCall {X} (ord : sched) (threads : bool) (chunk : nat) (junk : X) (idx : arg Z) (a : arg X) : outcome (option (Z * list X)) :=
  obind (mlp_read idx) (fun ix =>
  obind (mlp_read a) (fun vals =>
  if negb (a_len idx =? a_len a) then Error
  else if a_dtype a =? 17 then Done None
  else match index_bits (a_dtype idx) with
  | Some w => obind (undef (BinsModel.ReIndex ord threads chunk w vals ix junk)) (fun r => Done (Some (a_dtype a, r)))
  | None => Error
  end)).

(** ** ReMapIndex *)
(* Bins.cpp:241-262 and 297-317 *)
Definition remap_bits (d : Z) : option Z := match d with 1 => Some 8 | 3 => Some 16 | 5 => Some 32 | 7 | 9 => Some 64 | _ => None end.
(* Bins.cpp:279-333: the memory of the output array afterwards.  Simplified: elements after the end of an array are undefined *)
Definition ReMapIndexCall (a out mapper : arg Z) : outcome (list Z) :=
  if negb (a_dtype mapper =? 5) then Error
  else match remap_bits (a_dtype a), remap_bits (a_dtype out) with
  | Some _, Some w =>
      obind (undef (read_arg a)) (fun inp =>
      obind (undef (read_arg mapper)) (fun m =>
      obind (undef (read_arg out)) (fun o =>
      obind (undef (BinsModel.ReMapIndex w inp m o)) (fun r =>
        Done (firstn (Z.to_nat (a_start out)) (a_mem out) ++ r ++ skipn (Z.to_nat (a_start out) + length r) (a_mem out))))))
  | _, _ => Done (a_mem out)
  end.
