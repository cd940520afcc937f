(** Model of MultiKeyAlign32 and MultiKeyIsMember32 of /repo/src/MultiKey.cpp from their arguments to their results.  The tuples are those of RkModel, the
    rows those of MkModel, the hash tables those of HashModel.
    Simplified: the first two arguments are tuples and the others are all given; arrays have one dimension; memory can always be had; a hint that does not
    fit (below 0 or from 2^63 on) counts as undefined.  A call with an error that returns None counts as an error.  No proofs in this file. *)
From Verif Require Import Base Mem Num AllModel EaModel.
From Verif Require HashModel.
From Verif Require Import MkModel RkModel.
Local Open Scope Z_scope.

(* MultiKey.cpp:1623-1624, 1742-1743: both tuples are read, even if there is an error in the first *)
Definition both {X Y} (x : outcome X) (y : outcome Y) : outcome (X * Y) :=
  match x, y with
  | Undefined, _ | _, Undefined => Undefined
  | Done a, Done b => Done (a, b)
  | _, _ => Error
  end.

(* HashLinear.cpp:5554-5602: the type of the rows that are returned *)
Definition member_type (n1 n2 : Z) : Z :=
  let n := if n1 <? n2 then n2 else n1 in
  if n <? 100 then 1 else if n <? 30000 then 3 else if n <? 2000000000 then 5 else 7.
(* HashLinear.cpp:860, 1036, 1225: BAD_INDEX of a signed type *)
Definition bad_index (dtype : Z) : Z :=
  match dtype with 1 => - 128 | 3 => - 32768 | 5 => - 2 ^ 31 | _ => - 2 ^ 63 end.

(* the times: an array of integers (also dates) with items of [size] bytes, an array of floats, another object.  Arrays of other types count as other objects *)
Inductive time_array := TInt (size : Z) (a : arg Z) | TFloat (size : Z) (a : arg fl) | TOther.
(* RipTide.cpp:188-196 ObjectToDtype *)
Definition object_type (v : time_array) : Z :=
  let d := match v with TInt _ a => a_dtype a | TFloat _ a => a_dtype a | TOther => 20 end in if known_type d then d else -1.
Definition item_size (v : time_array) : Z := match v with TInt size _ | TFloat size _ => size | TOther => 0 end.
Definition array_length (v : time_array) : Z := match v with TInt _ a => a_len a | TFloat _ a => a_len a | TOther => 0 end.
(* MultiKey.cpp:1762-1781 *)
Definition types_agree (v1 v2 : time_array) : bool :=
  let d1 := object_type v1 in let d2 := object_type v2 in
  (0 <=? d1) && ((d1 =? d2) || ((d1 <=? 10) && (d2 <=? 10) && Bool.eqb (Z.odd d1) (Z.odd d2) && (item_size v1 =? item_size v2))).
(* HashLinear.cpp:4885-4973, CommonInc.h:104-117, missing_values.h:96-213: the integer types and their invalid values *)
Definition int_invalid (d : Z) : option Z :=
  match d with 5 => Some (- 2 ^ 31) | 7 | 9 => Some (- 2 ^ 63) | 6 => Some (2 ^ 32 - 1) | 8 | 10 => Some (2 ^ 64 - 1) | _ => None end.

Section Hashes.
  (* the hash function; what the new array held *)
  Context (crc_bytes : list Z -> Z) (d : Z).

  (* HashLinear.cpp:4885-5066 on the items of the times, which are read one after the other whatever their stride (MultiKey.cpp:1797-1798) *)
  Definition align (forward exact : bool) (bad : Z) (rows1 rows2 : list (list Z)) (v1 v2 : time_array) : outcome (list Z) :=
    match v1, v2 with
    | TInt _ a1, TInt _ a2 =>
        match int_invalid (object_type v1) with
        | None => Error
        | Some invalid => obind (undef (read_arg a1)) (fun t1 => obind (undef (read_arg a2)) (fun t2 =>
            match HashModel.MultiKeyAlign HashModel.bytes_eqb (HashModel.row_hash crc_bytes) Z.ltb Z.eqb (fun x => negb (x =? invalid)) forward exact bad d rows1 rows2 t1 t2 with
            | HashModel.Ret r => Done r
            | HashModel.Throw => Error
            | HashModel.UB => Undefined
            end))
        end
    | TFloat _ a1, TFloat _ a2 =>
        if (object_type v1 =? 11) || (object_type v1 =? 12)
        then obind (undef (read_arg a1)) (fun t1 => obind (undef (read_arg a2)) (fun t2 =>
            match HashModel.MultiKeyAlign HashModel.bytes_eqb (HashModel.row_hash crc_bytes) flt feq (fun x => negb (is_nan x)) forward exact bad d rows1 rows2 t1 t2 with
            | HashModel.Ret r => Done r
            | HashModel.Throw => Error
            | HashModel.UB => Undefined
            end))
        else Error
    | _, _ => Error
    end.
  (* MultiKey.cpp:1695-1841: the type and the elements of the result, or None without an error *)
  Definition MultiKeyAlign32Call (k1 k2 : roll_keys) (v1 v2 : time_array) (forward exact : bool) : outcome (option (Z * list Z)) :=
    match v1, v2 with
    | TOther, _ | _, TOther => Error
    | _, _ =>
        obind (both (prepare_keys k1) (prepare_keys k2)) (fun q =>
        let width (p : option prepared) := match p with Some p => p_width p | None => 0 end in
        let rows (p : option prepared) := match p with Some p => p_rows p | None => [] end in
        let n1 := Z.of_nat (length (rows (fst q))) in
        let n2 := Z.of_nat (length (rows (snd q))) in
        if negb (width (fst q) =? width (snd q)) then Error
        else if negb (types_agree v1 v2) then Error
        else if negb (array_length v1 =? n1) then Error
        else if negb (array_length v2 =? n2) then Error
        else match q with
        | (Some p1, Some p2) =>
            if negb (p_object p1) then Undefined
            else let dtype := if (2000000000 <? n1) || (2000000000 <? n2) then 7 else 5 in
                 obind (align forward exact (bad_index dtype) (p_rows p1) (p_rows p2) v1 v2) (fun r => Done (Some (dtype, r)))
        | _ => Done None
        end)
    end.

  (* MultiKey.cpp:1595-1687 and HashLinear.cpp:5506-5602: which rows are in the second table, and where first; None: an exception.  Without a work item
     ([threaded] false) every exception is caught, else only those while the table is made.  [hint]: None if it is not given or no integer *)
  Definition MultiKeyIsMember32Call (ord : sched) (threaded : bool) (k1 k2 : roll_keys) (hint : option Z) : outcome (option (list bool * Z * list Z)) :=
    let h := match hint with Some h => h | None => 0 end in
    if negb (hint_ok h) then Undefined
    else obind (both (prepare_keys k1) (prepare_keys k2)) (fun q =>
      match q with
      | (Some p1, Some p2) =>
          let n1 := Z.of_nat (length (p_rows p1)) in
          let n2 := Z.of_nat (length (p_rows p2)) in
          if (n1 =? 0) || (n2 =? 0) then Error
          else if negb (p_width p1 =? p_width p2) then Error
          else
            let dtype := member_type n1 n2 in
            match HashModel.MultiKeyIsMember crc_bytes ord threaded h (bad_index dtype) (p_rows p1) (p_rows p2) with
            | HashModel.Ret r => Done (Some (map fst r, dtype, map snd r))
            | HashModel.Throw =>
                if threaded
                then match HashModel.MultiKeyIsMember crc_bytes ord threaded h (bad_index dtype) [] (p_rows p2) with HashModel.Throw => Done None | _ => Undefined end
                else Done None
            | HashModel.UB => Undefined
            end
      | _ => Error
      end).
End Hashes.
