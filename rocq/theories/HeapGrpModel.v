(** src/GroupBy.cpp AccumRollingQuantile1e9Mult: the rolling quantile of every group; src/Ema.cpp QUANTILE_SPLIT for int64. No proofs in this file. *)
From Verif Require Import Base Mem GrpxModel HeapModel.
Local Open Scope Z_scope.

Section Groups.
  Context {T U : Type} (pSrc : list T) (pGroup pFirst pCount : list Z).
  Context (less : T -> T -> bool) (valid : T -> bool) (uinv : U) (conv : T -> U) (split : T -> T -> U).
  (* GroupBy.cpp:1681-1702 *)
  Definition roll_one : xfun := fun i =>
    match zrd pFirst i, zrd pCount i with
    | Some start, Some c =>
        option_map fst (roll pGroup 1 (fun j (s : unit) => match src_at pSrc pGroup j with Some x => Some (s, if valid x then conv x else uinv) | None => None end) (Z.to_nat c) start tt)
    | _, _ => None
    end.
  (* Heap.h:418-425 Clean leaves the elements in the work space: [left i] is what the work space holds when group [i] starts *)
  Definition start_with (m : mem T) : rq := {| elems := m; maxh := []; minh := []; nans := []; oldest := None; newest := None |}.
  (* GroupBy.cpp:1703-1738 *)
  Definition roll_quantile (left : Z -> mem T) (k w : Z) : xfun := fun i =>
    let W := Z.to_nat w in
    let max_heap_size := (IntegralIndex k W + 1)%nat in
    match zrd pFirst i, zrd pCount i with
    | Some start, Some c =>
        option_map fst (roll pGroup 1 (fun j s => match src_at pSrc pGroup j with
                                                  | Some x => match Update less valid uinv conv split (IntegralIndex k) (IndexIsIntegral k) W max_heap_size (W - max_heap_size) x s with
                                                              | Some (u, s') => Some (s', u)
                                                              | None => None
                                                              end
                                                  | None => None
                                                  end) (Z.to_nat c) start (start_with (left i)))
    | _, _ => None
    end.
  (* GroupBy.cpp:1641-1739 *)
  Definition AccumRollingQuantile1e9Mult (left : Z -> mem T) (param low high : Z) : option (list (Z * U)) :=
    let k := Z.rem param (MULT + 1) in
    let w := Z.quot param (MULT + 1) in
    roll_call pGroup pFirst pCount uinv (w <=? 0) (if w =? 1 then roll_one else roll_quantile left k w) low high.
End Groups.

(* Ema.cpp:21-25, GroupBy.cpp:75-79 for int64: the sum is taken in int64_t; in halves, None: the sum overflows *)
Definition QUANTILE_SPLIT64 (x y : Z) : option Z := if (- 2 ^ 63 <=? x + y) && (x + y <? 2 ^ 63) then Some (x + y) else None.
