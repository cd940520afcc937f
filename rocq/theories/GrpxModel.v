(** Model of the group-by functions that work on packed groups (/repo/src/GroupBy.cpp: first, last, nth, median,
    mode, quantile, trimmed mean and the rolling functions), sequentially and over bands of groups.
    iGroup, iFirst and nCount (the packed layout) are lists; a read or write outside an array is None. *)
From Coq Require Import SpecFloat.
From Verif Require Import Base Mem GroupModel.
From Verif Require SortModel.
Local Open Scope Z_scope.

(* Sort.cpp:912-1001 quicksort_, which GroupBy.cpp:2146 and 2356 call; it never fails on fewer than 2^63 values *)
Definition quick {T} (lt : T -> T -> bool) (l : list T) : list T :=
  match SortModel.quicksort (fun x y => Some (lt x y)) l (Z.of_nat (length l)) with Some r => r | None => l end.

Section X.
  (* T: input values, U: output values *)
  Context {T U : Type}.
  (* [w]: bits of the type V of iGroup, iFirst and nCount *)
  Context (w : Z) (pSrc : list T) (pGroup pFirst pCount : list Z) (uinv : U) (conv : T -> U).

  (* A function is modelled by the writes (index, value) it does for one bin; None: it reads outside an array. *)
  Definition xfun := Z -> option (list (Z * U)).

  (* the loop for (i = binLow; i < binHigh; i++); interrupts are not modelled *)
  Fixpoint bin_loop (f : xfun) (n : nat) (low : Z) : option (list (Z * U)) :=
    match n with
    | O => Some []
    | S n' => match f low with
              | Some a => match bin_loop f n' (low + 1) with Some b => Some (a ++ b) | None => None end
              | None => None
              end
    end.
  Definition xcall (f : xfun) (low high : Z) : option (list (Z * U)) := bin_loop f (Z.to_nat (high - low)) low.

  (* pSrc[pGroup[k]] *)
  Definition src_at (k : Z) : option T :=
    match zrd pGroup k with Some row => zrd pSrc row | None => None end.

  (** ** first, last, nth *)

  (* GroupBy.cpp:1177-1205.  AccumNthString (1209-1239) is the same with the itemSize bytes of an item as the
     value and zero bytes as the invalid value. *)
  Definition AccumNth (nth : Z) : xfun := fun i =>
    match zrd pCount i with
    | Some c =>
        let nthIndex := if 0 <=? nth then nth else c + nth in
        if (0 <? c) && (0 <=? nthIndex) && (nthIndex <? c) then
          match zrd pFirst i with
          | Some f => match src_at (f + nthIndex) with Some x => Some [(i, conv x)] | None => None end
          | None => None
          end
        else Some [(i, uinv)]
    | None => None
    end.

  (* GroupBy.cpp:1241-1273; strings 1275-1300 *)
  Definition AccumFirst : xfun := fun i =>
    match zrd pCount i with
    | Some c =>
        if 0 <? c then
          match zrd pFirst i with
          | Some f => match src_at f with Some x => Some [(i, conv x)] | None => None end
          | None => None
          end
        else Some [(i, uinv)]
    | None => None
    end.

  (* GroupBy.cpp:1302-1332; strings 1335-1357 *)
  Definition AccumLast : xfun := fun i =>
    match zrd pCount i with
    | Some c =>
        if 0 <? c then
          match zrd pFirst i with
          | Some f => match src_at (f + c - 1) with Some x => Some [(i, conv x)] | None => None end
          | None => None
          end
        else Some [(i, uinv)]
    | None => None
    end.

  (** ** Functions that copy the group's values to a work array *)

  (* for (j = 0; j < nCount; j++) pSort[j] = pSrc[pGroup[index + j]] *)
  Fixpoint copy_group (n : nat) (k : Z) : option (list T) :=
    match n with
    | O => Some []
    | S n' => match src_at k with
              | Some x => match copy_group n' (k + 1) with Some l => Some (x :: l) | None => None end
              | None => None
              end
    end.

  (* [h]: the result for the copied values; empty groups are invalid *)
  Definition on_group (h : list T -> option U) : xfun := fun i =>
    match zrd pFirst i, zrd pCount i with
    | Some f, Some c =>
        if c =? 0 then Some [(i, uinv)]
        else match copy_group (Z.to_nat c) f with
             | Some l => match h l with Some r => Some [(i, r)] | None => None end
             | None => None
             end
    | _, _ => None
    end.

  (* GroupBy.cpp:2140-2149, 2352-2361: drop the trailing values that differ from
     themselves *)
  Fixpoint strip_end (eq : T -> T -> bool) (r : list T) : list T :=
    match r with [] => [] | x :: r' => if eq x x then r else strip_end eq r' end.
  Definition strip_back (eq : T -> T -> bool) (s : list T) : list T := rev (strip_end eq (rev s)).

  (* GroupBy.cpp:2320-2392; [qsort] is quicksort_<T>, [split] is MEDIAN_SPLIT (None: signed overflow) *)
  Definition median_of (qsort : list T -> list T) (eq : T -> T -> bool) (split : T -> T -> option T) (l : list T) : option U :=
    let s := strip_back eq (qsort l) in
    let n := length s in
    if (n =? 0)%nat then Some uinv
    else if Nat.odd n then option_map conv (nth_error s (n / 2))
    else match nth_error s (n / 2), nth_error s (n / 2 - 1) with
         | Some a, Some b => option_map conv (split a b)
         | _, _ => None
         end.
  Definition AccumMedian qsort eq split : xfun := on_group (median_of qsort eq split).

  (* GroupBy.cpp:2165-2183: the longest run of equal values *)
  Fixpoint mode_loop (eq : T -> T -> bool) (l : list T) (cur best : T) (cc bc : Z) : T :=
    match l with
    | [] => best
    | x :: l' =>
        let '(cur', cc') := if eq x cur then (cur, cc + 1) else (x, 1) in
        if bc <? cc' then mode_loop eq l' cur' cur' cc' cc' else mode_loop eq l' cur' best cc' bc
    end.

  (* GroupBy.cpp:2108-2187 *)
  Definition mode_of (qsort : list T -> list T) (eq : T -> T -> bool) (l : list T) : option U :=
    match strip_back eq (qsort l) with
    | [] => Some uinv
    | x :: s => Some (conv (mode_loop eq s x x 1 1))
    end.
  Definition AccumMode qsort eq : xfun := on_group (mode_of qsort eq).

  (* std::max_element: the first element that no later one is greater than *)
  Fixpoint max_element (lt : T -> T -> bool) (best : T) (l : list T) : T :=
    match l with [] => best | x :: l' => if lt best x then max_element lt x l' else max_element lt best l' end.

  (* GroupBy.cpp:2192-2312.  [nthel l k] is the array after std::nth_element(l, l + k, end); [down n], [up n] are
     the rounded indices for n values (see [quantile_index]); [split] is QUANTILE_SPLIT (None: signed overflow). *)
  Definition quantile_of (ok : T -> bool) (lt : T -> T -> bool) (nthel : list T -> nat -> list T) (split : T -> T -> option U)
      (nanq : bool) (down up : nat -> Z) (l : list T) : option U :=
    if negb nanq && negb (forallb ok l) then Some uinv
    else
      let v := filter ok l in
      let n := length v in
      if (n =? 0)%nat then Some uinv
      else if up n =? down n then option_map conv (zrd (nthel v (Z.to_nat (up n))) (up n))
      else
        let p := nthel v (Z.to_nat (up n)) in
        match zrd p (up n), firstn (Z.to_nat (up n)) p with
        | Some upper, b :: bs => split upper (max_element lt b bs)
        | _, _ => None
        end.
  Definition AccumQuantile1e9Mult ok lt nthel split nanq down up : xfun :=
    on_group (quantile_of ok lt nthel split nanq down up).

  (* GroupBy.cpp:167-190: move the invalid values to the end; the number of valid ones *)
  Fixpoint strip_nans (ok : T -> bool) (fuel : nat) (x : list T) (i j : Z) : option (list T * Z) :=
    if i <? j then
      match fuel with
      | O => None
      | S fuel' =>
          match zrd x i with
          | Some xi =>
              if ok xi then strip_nans ok fuel' x (i + 1) j
              else match zrd x (j - 1) with
                   | Some xj =>
                       if ok xj then
                         match zwr x (j - 1) xi with
                         | Some x1 => match zwr x1 i xj with Some x2 => strip_nans ok fuel' x2 (i + 1) (j - 1) | None => None end
                         | None => None
                         end
                       else strip_nans ok fuel' x i (j - 1)
                   | None => None
                   end
          | None => None
          end
      end
    else Some (x, i).

  (* GroupBy.cpp:2028-2100.  [ntrim] is ntrimbad; [zero], [add], [div] are those of double; [cast]: (T)(sum / cnt)
     stored in the output type *)
  Definition trimmean_of {D} (ok : T -> bool) (le : T -> T -> bool) (nthel : list T -> nat -> list T) (ntrim : nat -> nat)
      (zero : D) (add : D -> T -> D) (cast : D -> Z -> U) (l : list T) : option U :=
    match strip_nans ok (S (length l)) l 0 (Z.of_nat (length l)) with
    | Some (x, nz) =>
        let n := Z.to_nat nz in
        if (n =? 0)%nat then Some uinv
        else
          let t := ntrim n in
          if (n <=? 2 * t)%nat then Some uinv
          else
            let p1 := nthel (firstn n x) (t - 1)%nat in
            let p2 := nthel p1 (n - t)%nat in
            match nth_error p1 (t - 1), nth_error p2 (n - t) with
            | Some lb, Some ub =>
                if le lb ub then
                  let kept := filter (fun y => le lb y && le y ub) p2 in
                  Some (match kept with [] => uinv | _ => cast (fold_left add kept zero) (Z.of_nat (length kept)) end)
                else Some uinv
            | _, _ => None
            end
    | None => None
    end.
  Definition AccumTrimMeanBR {D} ok le nthel ntrim (zero : D) add cast : xfun := on_group (trimmean_of ok le nthel ntrim zero add cast).

  (** ** Rolling functions: one output per row *)

  (* for (j = j0; ...; j++) { index = pGroup[j]; ... pDest[index] = ...; }, [n] iterations; [step] is -1 for the
     loops that go down.  [body] gives the new state and the value written. *)
  Fixpoint roll {S} (step : Z) (body : Z -> S -> option (S * U)) (n : nat) (j : Z) (s : S) : option (list (Z * U) * S) :=
    match n with
    | O => Some ([], s)
    | Datatypes.S n' =>
        match zrd pGroup j with
        | Some index =>
            match body j s with
            | Some (s', u) =>
                match roll step body n' (j + step) s' with
                | Some (ws, s2) => Some ((index, u) :: ws, s2)
                | None => None
                end
            | None => None
            end
        | None => None
        end
    end.

  (* the two loops of the functions for a window >= 0: the first [win] rows of the group, then the others.
     The second loop starts with V j = start + windowSize, which wraps at the width of V. *)
  Definition two_loops {S} (win : Z) (body1 body2 : Z -> Z -> S -> option (S * U)) (s0 : S) : xfun := fun i =>
    match zrd pFirst i, zrd pCount i with
    | Some start, Some c =>
        let last := start + c in
        match roll 1 (body1 start) (Z.to_nat (Z.min last (start + win) - start)) start s0 with
        | Some (ws1, s1) =>
            let j2 := wrap w (start + win) in
            match roll 1 (body2 start) (Z.to_nat (last - j2)) j2 s1 with
            | Some (ws2, _) => Some (ws1 ++ ws2)
            | None => None
            end
        | None => None
        end
    | _, _ => None
    end.

  (* the invalid bin: all rows of the group are marked invalid *)
  Definition mark_invalid : xfun := fun i =>
    match zrd pFirst i, zrd pCount i with
    | Some start, Some c => option_map fst (roll 1 (fun _ (s : unit) => Some (s, uinv)) (Z.to_nat c) start tt)
    | _, _ => None
    end.

  (* if (binLow == 0) { mark bin 0; binLow++; } then the loop over the bins; [early]: return before it *)
  Definition roll_call (early : bool) (f : xfun) (low high : Z) : option (list (Z * U)) :=
    match (if low =? 0 then mark_invalid 0 else Some []) with
    | Some a =>
        if early then Some a
        else match xcall f (if low =? 0 then 1 else low) high with Some b => Some (a ++ b) | None => None end
    | None => None
    end.

  Context (zero : U) (add sub : U -> U -> U) (div : U -> Z -> U) (ok : T -> bool).

  (* GroupBy.cpp:1361-1421 *)
  Definition roll_sum (win : Z) : xfun := two_loops win
    (fun start j s => match src_at j with Some x => let s' := add s (conv x) in Some (s', s') | None => None end)
    (fun start j s => match src_at j, src_at (j - win) with
                      | Some x, Some y => let s' := sub (add s (conv x)) (conv y) in Some (s', s')
                      | _, _ => None
                      end)
    zero.
  Definition AccumRollingSum (win low high : Z) := roll_call (win <? 0) (roll_sum win) low high.

  (* GroupBy.cpp:1425-1497 *)
  Definition add_ok (s : U) (x : T) : U := if ok x then add s (conv x) else s.
  Definition sub_ok (s : U) (x : T) : U := if ok x then sub s (conv x) else s.
  Definition roll_nansum (win : Z) : xfun := two_loops win
    (fun start j s => match src_at j with Some x => let s' := add_ok s x in Some (s', s') | None => None end)
    (fun start j s => match src_at j, src_at (j - win) with
                      | Some x, Some y => let s' := sub_ok (add_ok s x) y in Some (s', s')
                      | _, _ => None
                      end)
    zero.
  Definition AccumRollingNanSum (win low high : Z) := roll_call (win <? 0) (roll_nansum win) low high.

  (* GroupBy.cpp:1501-1558; the output type is double *)
  Definition roll_mean (win : Z) : xfun := two_loops win
    (fun start j s => match src_at j with Some x => let s' := add s (conv x) in Some (s', div s' (j - start + 1)) | None => None end)
    (fun start j s => match src_at j, src_at (j - win) with
                      | Some x, Some y => let s' := sub (add s (conv x)) (conv y) in Some (s', div s' win)
                      | _, _ => None
                      end)
    zero.
  Definition AccumRollingMean (win low high : Z) := roll_call (win <? 0) (roll_mean win) low high.

  (* GroupBy.cpp:1562-1636; the count is an exact double *)
  Definition count_ok (x : T) : Z := if ok x then 1 else 0.
  Definition mean_or (s : U) (c : Z) : U := if 0 <? c then div s c else uinv.
  Definition roll_nanmean (win : Z) : xfun := two_loops win
    (fun start j s => match src_at j with
                      | Some x => let s' := (add_ok (fst s) x, snd s + count_ok x) in Some (s', mean_or (fst s') (snd s'))
                      | None => None
                      end)
    (fun start j s => match src_at j, src_at (j - win) with
                      | Some x, Some y => let s' := (sub_ok (add_ok (fst s) x) y, snd s + count_ok x - count_ok y) in
                                          Some (s', mean_or (fst s') (snd s'))
                      | _, _ => None
                      end)
    (zero, 0).
  Definition AccumRollingNanMean (win low high : Z) := roll_call (win <? 0) (roll_nanmean win) low high.

  (* GroupBy.cpp:1741-1799; [cnt] stores the counter (int32) *)
  Definition roll_count (cnt : Z -> U) (win : Z) : xfun := fun i =>
    match zrd pFirst i, zrd pCount i with
    | Some start, Some c =>
        if win <? 0 then option_map fst (roll (-1) (fun _ s => Some (s + 1, cnt s)) (Z.to_nat c) (start + c - 1) 0)
        else option_map fst (roll 1 (fun _ s => Some (s + 1, cnt s)) (Z.to_nat c) start 0)
    | _, _ => None
    end.
  Definition AccumRollingCount (cnt : Z -> U) (win low high : Z) := roll_call false (roll_count cnt win) low high.

  (* GroupBy.cpp:1804-1911 and 1915-2022: shift and difference; [f] is the value written for the row's own
     value x and the value y of the row [win] before it (after it for a negative window).  For difference and
     window 1 the code keeps the previous value in a variable instead of reading it again (1942-1965). *)
  Definition roll_pair (f : T -> T -> U) (win : Z) : xfun := fun i =>
    let inv := fun (_ : Z) (s : unit) => Some (s, uinv) in
    let at_ k (s : unit) j := match src_at j, src_at k with Some x, Some y => Some (s, f x y) | _, _ => None end in
    if 0 <=? win then two_loops win (fun _ => inv) (fun _ j s => at_ (j - win) s j) tt i
    else
      match zrd pFirst i, zrd pCount i with
      | Some start0, Some c =>
          let win' := - win in
          let last := start0 + c - 1 in
          let start := start0 - 1 in
          match roll (-1) inv (Z.to_nat (last - Z.max start (last - win'))) last tt with
          | Some (ws1, _) =>
              let j2 := wrap w (last - win') in
              match roll (-1) (fun j s => at_ (j + win') s j) (Z.to_nat (j2 - start)) j2 tt with
              | Some (ws2, _) => Some (ws1 ++ ws2)
              | None => None
              end
          | None => None
          end
      | _, _ => None
      end.
  Definition roll_shift (win : Z) : xfun := roll_pair (fun _ y => conv y) win.
  Definition AccumRollingShift (win low high : Z) := roll_call false (roll_shift win) low high.

  (* the special case of window 1 *)
  Definition roll_diff1 : xfun := fun i =>
    match zrd pFirst i, zrd pCount i with
    | Some start, Some c =>
        if 0 <? c then
          match zrd pGroup start, src_at start with
          | Some index, Some x =>
              match roll 1 (fun j (prev : U) => match src_at j with Some y => Some (conv y, sub (conv y) prev) | None => None end)
                      (Z.to_nat (c - 1)) (start + 1) (conv x) with
              | Some (ws, _) => Some ((index, uinv) :: ws)
              | None => None
              end
          | _, _ => None
          end
        else Some []
    | _, _ => None
    end.
  Definition roll_diff (win : Z) : xfun :=
    if win =? 1 then roll_diff1 else roll_pair (fun x y => sub (conv x) (conv y)) win.
  Definition AccumRollingDiff (win low high : Z) := roll_call false (roll_diff win) low high.
End X.

(** ** The calls *)
Section Calls.
  Context {U : Type}.

  (* GroupBy.cpp:4099-4170 with ANY_GROUPBY_XFUNC32: one call for the range *)
  Definition GroupByX (call : Z -> Z -> option (list (Z * U))) (low high : Z) (out0 : list U) : option (list U) :=
    match call low high with Some ws => writes ws out0 | None => None end.

  (* GroupBy.cpp:4321-4340: the bands *)
  Fixpoint bands_loop (cores : nat) (dividend remainder low : Z) : list (Z * Z) :=
    match cores with
    | O => []
    | S c' => let high := low + dividend + (if 0 <? remainder then 1 else 0) in
              (low, high) :: bands_loop c' dividend (if 0 <? remainder then remainder - 1 else remainder) high
    end.
  Definition bands (cores unique_rows : Z) : list (Z * Z) :=
    bands_loop (Z.to_nat cores) (unique_rows / cores) (unique_rows mod cores) 0.

  (* GroupBy.cpp:3995-4033: each band is one work block; the writes of all threads reach memory in any order *)
  Definition BandedGroupBy (ord : sched) (call : Z -> Z -> option (list (Z * U))) (cores unique_rows : Z) (out0 : list U)
    : option (list U) :=
    match each_band (fun b => call (fst b) (snd b)) (bands cores unique_rows) with
    | Some wss => writes (ord _ (concat wss)) out0
    | None => None
    end.

  (* GroupBy.cpp:4957-4975 with 4276-4283: one column; [banded_func]: median, mode, trimmed mean or quantile *)
  Definition GroupByAllPack32 (ord : sched) (threading banded_func : bool) (numCores rows : Z) (call : Z -> Z -> option (list (Z * U)))
      (low high unique_rows : Z) (out0 : list U) : option (list U) :=
    let cores := if high - low <? numCores then high - low else numCores in
    if banded_func && (65536 <? rows) && threading && (0 <? cores) then BandedGroupBy ord call cores unique_rows out0
    else GroupByX call low high out0.
End Calls.

(** ** Instances *)

(* GroupBy.cpp:26-74: (X + Y) / 2 for the signed types: int8 and int16 are added as int, int32 and int64 overflow *)
Definition MEDIAN_SPLIT_signed (bits x y : Z) : option Z :=
  let s := x + y in
  if (bits <=? 16) || ((- 2 ^ (bits - 1) <=? s) && (s <? 2 ^ (bits - 1))) then Some (Z.quot s 2) else None.
(* the unsigned types: uint32 and uint64 wrap *)
Definition MEDIAN_SPLIT_unsigned (bits x y : Z) : option Z :=
  Some (if bits <=? 16 then (x + y) / 2 else ((x + y) mod 2 ^ bits) / 2).

(* GroupBy.cpp:76-80: (X + Y) / 2.0 stored as a double; the sum is computed in the integer type.  Twice the
   result is returned. *)
Definition QUANTILE_SPLIT2_signed (bits x y : Z) : option Z :=
  let s := x + y in
  if (bits <=? 16) || ((- 2 ^ (bits - 1) <=? s) && (s <? 2 ^ (bits - 1))) then Some s else None.
Definition QUANTILE_SPLIT2_unsigned (bits x y : Z) : option Z :=
  Some (if bits <=? 16 then x + y else (x + y) mod 2 ^ bits).

(* GroupBy.cpp:2211-2222 and 2285-2288 in binary64 arithmetic: frac_index = (nCount - 1) * (p / 1e9), rounded
   down and up *)
Definition sf (z : Z) : spec_float := binary_normalize 53 1024 z 0 false.
Definition frac_index (p : Z) (n : nat) : spec_float :=
  SFmul 53 1024 (sf (Z.of_nat n - 1)) (SFdiv 53 1024 (sf p) (sf (10 ^ 9))).
Definition sf_floor (x : spec_float) : Z :=
  match x with
  | S754_finite s m e => let v := if s then - Zpos m else Zpos m in if 0 <=? e then v * 2 ^ e else v / 2 ^ (- e)
  | _ => 0
  end.
Definition sf_ceil (x : spec_float) : Z :=
  match x with
  | S754_finite s m e => let v := if s then - Zpos m else Zpos m in if 0 <=? e then v * 2 ^ e else - ((- v) / 2 ^ (- e))
  | _ => 0
  end.
Definition q_down (p : Z) (n : nat) : Z := sf_floor (frac_index p n).
Definition q_up (p : Z) (n : nat) : Z := sf_ceil (frac_index p n).
