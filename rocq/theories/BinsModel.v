(** Model of /repo/src/Bins.cpp: searchsorted, cutting into bins, ReIndex. *)
From Verif Require Import Base Mem Par Num.
Local Open Scope Z_scope.

(** ** Binary searches over the edges *)

(* Bins.cpp:1749-1762: the output type V, by the number of edges *)
Definition out_bits (n : Z) : Z :=
  if 2000000000 <? n then 64 else if 30000 <? n then 32 else if 100 <? n then 16 else 8.

(* Bins.cpp:833 etc.: middle = (first + last) >> 1.  8 and 16 bit operands are promoted to int; for 32 and
   64 bits the addition overflows (undefined behaviour, None) at the limit of the type. *)
Definition midpoint (w first last : Z) : option Z :=
  let s := first + last in
  if s <? 2 ^ (Z.max 32 w - 1) then Some (Z.shiftr s 1) else None.

Section Search.
  (** [K]: edge type, [V]: value type (after conversion to the edge type). *)
  Context {K V : Type} (edges : list K) (w : Z).

  (* Bins.cpp:831-848 and 938-955: the loops of SearchSortedRight ([up e v]: e <= v) and of SearchSortedLeft
     ([up e v]: e < v).  [fuel] bounds the number of iterations; None: read outside the edges,
     overflow, or no termination within [fuel]. *)
  Fixpoint ss_loop (up : K -> V -> bool) (fuel : nat) (first last : Z) (v : V) : option Z :=
    match fuel with
    | O => None
    | S fuel' =>
        match midpoint w first last with
        | None => None
        | Some middle =>
            match zrd edges middle with
            | None => None
            | Some e =>
                if up e v then
                  let first := middle + 1 in
                  if last <? first then Some first else ss_loop up fuel' first last v
                else
                  let last := middle - 1 in
                  if last <? first then Some first else ss_loop up fuel' first last v
            end
        end
    end.

  (* Bins.cpp:1484-1511 (and 1398-1425, 1304-1332): the loop of the cut functions *)
  Fixpoint cut_loop (gt lt : K -> V -> bool) (fuel : nat) (first last : Z) (v : V) : option Z :=
    match fuel with
    | O => None
    | S fuel' =>
        match midpoint w first last with
        | None => None
        | Some middle =>
            match zrd edges middle with
            | None => None
            | Some e =>
                if gt e v then
                  let last := middle - 1 in
                  if last <=? first then Some first else cut_loop gt lt fuel' first last v
                else if lt e v then
                  let first := middle + 1 in
                  if last <=? first then Some first else cut_loop gt lt fuel' first last v
                else Some middle
            end
        end
    end.

  (* Bins.cpp:1513-1530 and copies: the bin from the position found *)
  Definition cut_place (le : V -> K -> bool) (v : V) (first : Z) : option Z :=
    if 0 <? first then
      match zrd edges first with
      | None => None
      | Some e => Some (if le v e then first else first + 1)
      end
    else Some 1.
End Search.

(** ** searchsorted on numbers

    Edges are integers in the unit of the edge type; [castT] converts an edge to the value type and
    [castB] a value to the edge type (C++ conversions; the identity when the types agree).  Values are
    [fl]; comparisons with NaN are false. *)
Section Sorted.
  Context (castT castB : Z -> Z).

  (* the value converted to the edge type; only finite values reach the search when edges are finite *)
  Definition conv (v : fl) : fl := match v with Fin z => Fin (castB z) | _ => v end.

  (* Bins.cpp:817-856 SearchSortedRight on one value.  The first reads are pBin1[lastbin], pBin1[0]. *)
  Definition search_right (edges : list Z) (value : fl) : option Z :=
    let n := Z.of_nat (length edges) in
    let w := out_bits n in
    let lastbin := wrap w n - 1 in
    match zrd edges lastbin, zrd edges 0 with
    | Some el, Some ef =>
        let verylast := Fin (castT el) in let veryfirst := Fin (castT ef) in
        if fle veryfirst value && flt value verylast
        then ss_loop edges w (fun e v => fle (Fin e) v) (S (length edges)) 0 lastbin (conv value)
        else if flt value veryfirst then Some 0 else Some (lastbin + 1)
    | _, _ => None
    end.

  (* Bins.cpp:896-935, 936-975 SearchSortedLeft *)
  Definition search_left (edges : list Z) (value : fl) : option Z :=
    let n := Z.of_nat (length edges) in
    let w := out_bits n in
    let lastbin := wrap w n - 1 in
    match zrd edges lastbin, zrd edges 0 with
    | Some el, Some ef =>
        let verylast := Fin (castT el) in let veryfirst := Fin (castT ef) in
        if flt veryfirst value && fle value verylast
        then ss_loop edges w (fun e v => flt (Fin e) v) (S (length edges)) 0 lastbin (conv value)
        else if fle value veryfirst then Some 0 else Some (lastbin + 1)
    | _, _ => None
    end.

  (* Bins.cpp:1447-1535 MakeBinsBSearch ([ok v]: v differs from the type's invalid value) and 1364-1435
     MakeBinsBSearchFloat ([ok]: isfinite) on one value *)
  Definition cut_one (ok : fl -> bool) (edges : list Z) (value : fl) : option Z :=
    let n := Z.of_nat (length edges) in
    let w := out_bits n in
    let lastbin := wrap w n - 1 in
    match zrd edges lastbin, zrd edges 0 with
    | Some el, Some ef =>
        let verylast := Fin (castT el) in let veryfirst := Fin (castT ef) in
        if ok value && (fle veryfirst value && fle value verylast) then
          match cut_loop edges w (fun e v => flt v (Fin e)) (fun e v => flt (Fin e) v) (S (length edges)) 0 lastbin (conv value) with
          | Some first => cut_place edges (fun v e => fle v (Fin e)) (conv value) first
          | None => None
          end
        else Some 0
    | _, _ => None
    end.

  (* Bins.cpp:1734-1955 BinsToCutsBSearch with searchMode 1 (left), 2 (right), 0 (cut) *)
  Definition SearchSorted (right : bool) (ord : sched) (thr : bool) (c : nat) (vals : list fl) (edges : list Z) (d : Z) :=
    par_map ord thr c (length vals)
      (fun i => match nth_error vals i with
                | Some v => if right then search_right edges v else search_left edges v
                | None => None end) d.
  Definition CutBSearch (ok : fl -> bool) (ord : sched) (thr : bool) (c : nat) (vals : list fl) (edges : list Z) (d : Z) :=
    par_map ord thr c (length vals)
      (fun i => match nth_error vals i with Some v => cut_one ok edges v | None => None end) d.
End Sorted.

(** ** String comparison *)

(* the common loop: the first position where the bytes differ *)
Fixpoint first_diff (a b : list Z) : option (Z * Z) :=
  match a, b with
  | x :: a', y :: b' => if x =? y then first_diff a' b' else Some (x, y)
  | _, _ => None
  end.

(* The shape shared by the four functions; they differ in the comparison of differing bytes and in
   the five constants returned: equal lengths and contents; first shorter, next byte of the second
   zero / non-zero; first longer, next byte of the first zero / non-zero. *)
Definition string_cmp (ne : Z -> Z -> bool) (r_same r_short0 r_short r_long0 r_long : bool) (s1 s2 : list Z) : bool :=
  match first_diff s1 s2 with
  | Some (x, y) => ne x y
  | None =>
      if (length s1 =? length s2)%nat then r_same
      else if (length s1 <? length s2)%nat
      then if nth (length s1) s2 0 =? 0 then r_short0 else r_short
      else if nth (length s2) s1 0 =? 0 then r_long0 else r_long
  end.
(* Bins.cpp:977-1019 *)
Definition STRING_LTEQ := string_cmp Z.ltb true true true true false.
(* Bins.cpp:1021-1062 *)
Definition STRING_LT := string_cmp Z.ltb false false true false false.
(* Bins.cpp:1064-1105 *)
Definition STRING_GTEQ := string_cmp Z.gtb true true false true true.
(* Bins.cpp:1107-1157 *)
Definition STRING_GT := string_cmp Z.gtb false false false false true.

(** ** Cutting strings *)

(* Bins.cpp:1290-1352 MakeBinsBSearchString on one value *)
Definition cut_string (edges : list (list Z)) (value : list Z) : option Z :=
  let n := Z.of_nat (length edges) in
  let w := out_bits n in
  let lastbin := wrap w n - 1 in
  match zrd edges lastbin, zrd edges 0 with
  | Some verylast, Some veryfirst =>
      if negb (nth 0 value 0 =? 0) && (STRING_GTEQ value veryfirst && STRING_LTEQ value verylast) then
        match cut_loop edges w STRING_GT STRING_LT (S (length edges)) 0 lastbin value with
        | Some first => cut_place edges STRING_LTEQ value first
        | None => None
        end
      else Some 0
  | _, _ => None
  end.

(* the item of [isz] bytes at byte [off] of a buffer; None when part of it is outside *)
Definition item_at (buf : list Z) (isz off : Z) : option (list Z) :=
  if (0 <=? off) && (off + isz <=? Z.of_nat (length buf))
  then Some (firstn (Z.to_nat isz) (skipn (Z.to_nat off) buf)) else None.

(* Bins.cpp:1266-1353 and 1829-1895.  The call (start, length) reads value [i] at byte start + i * itemsize
   (line 1269: the start is not multiplied by the item size) and writes output start + i. *)
Definition CutString (ord : sched) (thr : bool) (c : nat) (buf : list Z) (isz : Z) (n : nat) (edges : list (list Z)) (d : Z)
  : option (list Z) :=
  match all_some (concat (map (fun call : nat * nat =>
          map (fun i => match item_at buf isz (Z.of_nat (fst call) + Z.of_nat i * isz) with
                        | Some v => option_map (fun b => (Z.of_nat (fst call + i), b)) (cut_string edges v)
                        | None => None end) (seq 0 (snd call)))
          (chunk_calls thr c n))) with
  | Some ws => writes (ord _ ws) (repeat d n)
  | None => None
  end.

(** ** Cutting with a sort index *)

(* Bins.cpp:342-413 NanInfCount for floating point values: (nancount, posInfCount, negInfCount).
   [vs]: the values in sort order (pData[pIndex[i]]); [rev vs] is scanned from the back. *)
Fixpoint count_while {A} (p : A -> bool) (l : list A) : nat :=
  match l with x :: l' => if p x then S (count_while p l') else O | [] => O end.
Definition NanInfCount (vs : list fl) : nat * nat * nat :=
  let nan := count_while (fun v => negb (feq v v)) (rev vs) in
  let pos := count_while (fun v => feq v PInf) (skipn nan (rev vs)) in
  let neg := count_while (fun v => feq v NInf) (firstn (length vs - nan - pos) vs) in
  (nan, pos, neg).

(* Bins.cpp:588-598: values below the first edge get 1.  [ix]: remaining part of the sort index. *)
Fixpoint mbs_below (vals : list fl) (compare : fl) (ix : list Z) (out : list Z) : option (list Z * list Z) :=
  match ix with
  | [] => Some (out, [])
  | index :: ix' =>
      match zrd vals index with
      | None => None
      | Some v => if flt v compare
                  then match zwr out index 1 with Some out' => mbs_below vals compare ix' out' | None => None end
                  else Some (out, ix)
      end
  end.

(* Bins.cpp:632-639: find the next bin; None = edge read outside the array *)
Fixpoint mbs_next (edges : list Z) (fuel : nat) (v : fl) (bin : Z) (compare : fl) : option (Z * fl) :=
  match fuel with
  | O => None
  | S fuel' =>
      if (bin <? Z.of_nat (length edges)) && flt compare v then
        match zrd edges (bin + 1) with
        | None => None
        | Some e => mbs_next edges fuel' v (bin + 1) (Fin e)
        end
      else Some (bin, compare)
  end.

(* Bins.cpp:615-656: the middle part; when a bin beyond the last edge is reached, the remaining rows get 1 *)
Fixpoint mbs_mid (vals : list fl) (edges : list Z) (bin : Z) (compare : fl) (ix : list Z) (out : list Z) : option (list Z) :=
  match ix with
  | [] => Some out
  | index :: ix' =>
      match zrd vals index with
      | None => None
      | Some v =>
          if fle v compare then
            match zwr out index (bin + 1) with Some out' => mbs_mid vals edges bin compare ix' out' | None => None end
          else
            match mbs_next edges (S (length edges)) v bin compare with
            | None => None
            | Some (bin, compare) =>
                if Z.of_nat (length edges) <=? bin then writes (map (fun i => (i, 1)) ix) out
                else match zwr out index (bin + 1) with Some out' => mbs_mid vals edges bin compare ix' out' | None => None end
            end
      end
  end.

(* Bins.cpp:537-660 MakeBinsSorted; [sidx]: the sort index, [out]: the output as allocated *)
Definition MakeBinsSorted (vals : list fl) (edges : list Z) (sidx : list Z) (nan pos neg : nat) (out : list Z) : option (list Z) :=
  let newlen := (length sidx - (nan + pos))%nat in
  match writes (map (fun i => (i, 0)) (firstn neg sidx)) out with
  | None => None
  | Some out =>
  match writes (map (fun i => (i, 0)) (rev (skipn newlen sidx))) out with
  | None => None
  | Some out =>
  match zrd edges 0 with
  | None => None
  | Some e0 =>
  match mbs_below vals (Fin e0) (skipn neg (firstn newlen sidx)) out with
  | None => None
  | Some (out, ix) =>
      match ix with
      | [] => Some out
      | index :: _ =>
          match zrd vals index with
          | None => None
          | Some v =>
              if feq v (Fin e0) && (1 <? Z.of_nat (length edges))
              then match zrd edges 1 with Some e1 => mbs_mid vals edges 1 (Fin e1) ix out | None => None end
              else mbs_mid vals edges 0 (Fin e0) ix out
          end
      end
  end end end end.

(** ** ReIndex and ReMapIndex *)

(* Bins.cpp:21-55, 106-222: out[i] = in[index[i]], no bounds check; the index is read through the signed
   type of its width [w] *)
Definition ReIndex {A} (ord : sched) (thr : bool) (c : nat) (w : Z) (vals : list A) (idx : list Z) (d : A) : option (list A) :=
  par_map ord thr c (length idx)
    (fun i => match nth_error idx i with Some k => zrd vals (wrap w k) | None => None end) d.

(* Bins.cpp:228-237: out[i] = (U) map[in[i]]; [w]: width of U.  The output array is the caller's. *)
Definition ReMapIndex (w : Z) (inp mapper out : list Z) : option (list Z) :=
  match all_some (map (fun k => option_map (wrap w) (zrd mapper k)) inp) with
  | Some r => writes (enum 1 0 r) out
  | None => None
  end.
