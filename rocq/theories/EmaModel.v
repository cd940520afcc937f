(** src/Ema.cpp EmaAll32: running sums, products, counts, extremes and moving averages along the rows of each group.
    The work space arrays, one entry per bin each, are one list of records.  No proofs in this file. *)
From Verif Require Import Base Mem.
From Verif Require Export HeapModel.
Local Open Scope Z_scope.

Section Loop.
  Context {W D : Type}.
  (* Ema.cpp:806-823 and the other row loops: the bin of the row, [guard]: location >= GB_BASE_INDEX is tested, [other]: what a row
     below gets, None: nothing is written; result None: an access out of bounds *)
  Fixpoint by_rows (guard : bool) (other : option D) (body : nat -> W -> option (W * D)) (keys : list Z) (i : nat) (ws : list W) : option (list (option D)) :=
    match keys with
    | [] => Some []
    | k :: keys' =>
        if guard && (k <? 1) then
          do r <- by_rows guard other body keys' (S i) ws; Some (other :: r)
        else
          do w <- zrd ws k;
          do p <- body i w;
          do ws2 <- zwr ws k (fst p);
          do r <- by_rows guard other body keys' (S i) ws2; Some (Some (snd p) :: r)
    end.
End Loop.

Section Running.
  Context {T U : Type} (pKey : list Z) (pSrc : list T) (numUnique : Z).
  Context (pIncludeMask pResetMask : option (list bool)).
  Definition bins {W} (w : W) : list W := repeat w (Z.to_nat (numUnique + 1)).

  (* Ema.cpp:777-894 (add, zero) and Ema.cpp:1200-1321 (mul, one) *)
  Definition CumOp (Invalid : U) (conv : T -> U) (zero : U) (add : U -> U -> U) : option (list (option U)) :=
    match pIncludeMask, pResetMask with
    | Some im, Some rm =>
        by_rows true (Some Invalid) (fun i w =>
          do b <- nth_error im i;
          if b then do r <- nth_error rm i; do x <- nth_error pSrc i;
                    let w2 := add (if r then zero else w) (conv x) in Some (w2, w2)
          else Some (w, w)) pKey 0%nat (bins zero)
    | Some im, None =>
        by_rows true (Some Invalid) (fun i w =>
          do b <- nth_error im i;
          if b then do x <- nth_error pSrc i; let w2 := add w (conv x) in Some (w2, w2)
          else Some (w, w)) pKey 0%nat (bins zero)
    | None, Some rm =>
        by_rows true (Some Invalid) (fun i w =>
          do r <- nth_error rm i; do x <- nth_error pSrc i;
          let w2 := add (if r then zero else w) (conv x) in Some (w2, w2)) pKey 0%nat (bins zero)
    | None, None =>
        by_rows true (Some Invalid) (fun i w =>
          do x <- nth_error pSrc i; let w2 := add w (conv x) in Some (w2, w2)) pKey 0%nat (bins zero)
    end.

  (* Ema.cpp:1327-1382; the int32_t counter overflows at 2^31 *)
  Definition bump (w : Z) : option Z := if w + 1 <? 2 ^ 31 then Some (w + 1) else None.
  Definition FindNth : option (list (option Z)) :=
    match pIncludeMask with
    | Some im =>
        by_rows true (Some 0) (fun i w =>
          do b <- nth_error im i;
          if b then do w2 <- bump w; Some (w2, w2) else Some (w, 0)) pKey 0%nat (bins 0)
    | None => by_rows true (Some 0) (fun _ w => do w2 <- bump w; Some (w2, w2)) pKey 0%nat (bins 0)
    end.

  Context (Inv : T) (is_valid : T -> bool) (compare : T -> T -> bool).
  (* Ema.cpp:941-950 and the same lines of the other loops *)
  Definition nan_take (w x : T) : T := if is_valid x then if negb (is_valid w) || compare x w then x else w else w.
  (* Ema.cpp:898-1040 *)
  Definition CumNanExtreme : option (list (option T)) :=
    match pIncludeMask, pResetMask with
    | Some im, Some rm =>
        by_rows true None (fun i w =>
          do b <- nth_error im i;
          if b then do r <- nth_error rm i; do x <- nth_error pSrc i;
                    let w2 := if r then x else nan_take w x in Some (w2, w2)
          else Some (w, w)) pKey 0%nat (bins Inv)
    | Some im, None =>
        by_rows true None (fun i w =>
          do b <- nth_error im i;
          if b then do x <- nth_error pSrc i; let w2 := nan_take w x in Some (w2, w2)
          else Some (w, w)) pKey 0%nat (bins Inv)
    | None, Some rm =>
        by_rows true None (fun i w =>
          do r <- nth_error rm i; do x <- nth_error pSrc i;
          let w2 := if r then x else nan_take w x in Some (w2, w2)) pKey 0%nat (bins Inv)
    | None, None =>
        by_rows false None (fun i w =>
          do x <- nth_error pSrc i; let w2 := nan_take w x in Some (w2, w2)) pKey 0%nat (bins Inv)
    end.

  (* Ema.cpp:1086-1099 and the same lines of the other loops: the value and whether data was seen *)
  Definition ext_take (r : bool) (w : T * bool) (x : T) : T * bool :=
    if r || negb (snd w) then (x, true)
    else if negb (is_valid x) || (is_valid (fst w) && compare x (fst w)) then (x, true) else w.
  (* Ema.cpp:1044-1194 *)
  Definition CumExtreme : option (list (option T)) :=
    match pIncludeMask, pResetMask with
    | Some im, Some rm =>
        by_rows true None (fun i w =>
          do b <- nth_error im i;
          if b then do r <- nth_error rm i; do x <- nth_error pSrc i;
                    let w2 := ext_take r w x in Some (w2, fst w2)
          else Some (w, fst w)) pKey 0%nat (bins (Inv, false))
    | Some im, None =>
        by_rows true None (fun i w =>
          do b <- nth_error im i;
          if b then do x <- nth_error pSrc i; let w2 := ext_take false w x in Some (w2, fst w2)
          else Some (w, fst w)) pKey 0%nat (bins (Inv, false))
    | None, Some rm =>
        by_rows true None (fun i w =>
          do r <- nth_error rm i; do x <- nth_error pSrc i;
          let w2 := ext_take r w x in Some (w2, fst w2)) pKey 0%nat (bins (Inv, false))
    | None, None =>
        by_rows false None (fun i w =>
          do x <- nth_error pSrc i; let w2 := ext_take false w x in Some (w2, fst w2)) pKey 0%nat (bins (Inv, false))
    end.
End Running.

Section Averages.
  Context {T V U : Type} (pKey : list Z) (pSrc : list T) (pTime : list V) (numUnique : Z).
  Context (pIncludeMask pResetMask : option (list bool)).
  Context (Invalid : U) (ofT : T -> U) (zero one : U) (add sub mul : U -> U -> U).
  (* the difference of two times as a double, None: it overflows (Ema.cpp:1471, 1581); exp(-decayRate * x) *)
  Context (delta : V -> V -> option U) (negative : U -> bool) (decay : U -> U).
  Context (time0 largeNegative : V) (zeroT : T).

  (* Ema.cpp:1471-1472 *)
  Definition decay_step (value : T) (t : V) (w : U * V) : option (U * V) :=
    do d <- delta t (snd w); Some (add (ofT value) (mul (fst w) (decay d)), t).
  (* Ema.cpp:1405-1575 EmaDecay; pLastValue is written and never read *)
  Definition EmaDecay : option (list (option U)) :=
    match pIncludeMask, pResetMask with
    | Some im, Some rm =>
        by_rows true (Some Invalid) (fun i w =>
          do b <- nth_error im i;
          if b then do x <- nth_error pSrc i; do r <- nth_error rm i; do t <- nth_error pTime i;
                    do w2 <- decay_step x t (if r then (zero, time0) else w); Some (w2, zero)
          else Some (w, zero)) pKey 0%nat (bins numUnique (zero, time0))
    | Some im, None =>
        by_rows true (Some Invalid) (fun i w =>
          do b <- nth_error im i;
          do x <- (if b then nth_error pSrc i else Some zeroT); do t <- nth_error pTime i;
          do w2 <- decay_step x t w; Some (w2, fst w2)) pKey 0%nat (bins numUnique (zero, time0))
    | None, Some rm =>
        by_rows true (Some Invalid) (fun i w =>
          do r <- nth_error rm i; do x <- nth_error pSrc i; do t <- nth_error pTime i;
          do w2 <- decay_step x t (if r then (zero, time0) else w); Some (w2, fst w2)) pKey 0%nat (bins numUnique (zero, time0))
    | None, None =>
        by_rows true (Some Invalid) (fun i w =>
          do x <- nth_error pSrc i; do t <- nth_error pTime i;
          do w2 <- decay_step x t w; Some (w2, fst w2)) pKey 0%nat (bins numUnique (zero, time0))
    end.

  (* Ema.cpp:1619-1624 and 1815-1820: going backwards, so that the first value of each bin stays; [ws]: the work space as it was allocated *)
  Fixpoint prefill (keys : list Z) (src : list T) (ws : list U) : option (list U) :=
    match keys, src with
    | [], _ => Some ws
    | k :: keys', x :: src' => do ws2 <- prefill keys' src' ws; zwr ws2 k (ofT x)
    | _ :: _, [] => None
    end.
  (* Ema.cpp:1580-1587 EMA_NORMAL_FUNC: the average and the time *)
  Definition normal_step (value : U) (t : V) (w : U * V) : option (U * V) :=
    do d <- delta t (snd w);
    let decayedWeight := if negative d then zero else decay d in
    Some (add (mul value (sub one decayedWeight)) (mul (fst w) decayedWeight), t).
  (* Ema.cpp:1598-1778 EmaNormal: the records are the average, the time and the last value *)
  Definition EmaNormal (ws0 : list U) : option (list (option U)) :=
    do ema0 <- prefill pKey pSrc ws0;
    let ws := map (fun e => (e, largeNegative, zeroT)) ema0 in
    match pIncludeMask, pResetMask with
    | Some im, Some rm =>
        by_rows true (Some Invalid) (fun i w =>
          do b <- nth_error im i;
          if b then do x <- nth_error pSrc i; do r <- nth_error rm i; do t <- nth_error pTime i;
                    do w2 <- normal_step (ofT x) t (if r then (zero, time0) else fst w); Some ((w2, snd w), fst w2)
          else Some (w, fst (fst w))) pKey 0%nat ws
    | Some im, None =>
        by_rows true (Some Invalid) (fun i w =>
          do b <- nth_error im i;
          do x <- (if b then nth_error pSrc i else Some (snd w)); do t <- nth_error pTime i;
          do w2 <- normal_step (ofT x) t (fst w); Some ((w2, x), fst w2)) pKey 0%nat ws
    | None, Some rm =>
        by_rows true (Some Invalid) (fun i w =>
          do r <- nth_error rm i; do x <- nth_error pSrc i; do t <- nth_error pTime i;
          do w2 <- normal_step (ofT x) t (if r then (zero, time0) else fst w); Some ((w2, snd w), fst w2)) pKey 0%nat ws
    | None, None =>
        by_rows true (Some Invalid) (fun i w =>
          do x <- nth_error pSrc i; do t <- nth_error pTime i;
          do w2 <- normal_step (ofT x) t (fst w); Some ((w2, snd w), fst w2)) pKey 0%nat ws
    end.

  (* Ema.cpp:1781-1783 EMA_WEIGHTED_FUNC *)
  Definition weighted_step (decayedWeight value e : U) : U := add (mul value (sub one decayedWeight)) (mul e decayedWeight).
  (* Ema.cpp:1794-1932 EmaWeighted *)
  Definition EmaWeighted (decayedWeight : U) (ws0 : list U) : option (list (option U)) :=
    do ws <- prefill pKey pSrc ws0;
    match pIncludeMask, pResetMask with
    | Some im, Some rm =>
        by_rows true (Some Invalid) (fun i w =>
          do b <- nth_error im i;
          if b then do x <- nth_error pSrc i; do r <- nth_error rm i;
                    let w2 := weighted_step decayedWeight (ofT x) (if r then zero else w) in Some (w2, w2)
          else let w2 := weighted_step decayedWeight (ofT zeroT) w in Some (w2, w2)) pKey 0%nat ws
    | Some im, None =>
        by_rows true (Some Invalid) (fun i w =>
          do b <- nth_error im i;
          do x <- (if b then nth_error pSrc i else Some zeroT);
          let w2 := weighted_step decayedWeight (ofT x) w in Some (w2, w2)) pKey 0%nat ws
    | None, Some rm =>
        by_rows true (Some Invalid) (fun i w =>
          do r <- nth_error rm i; do x <- nth_error pSrc i;
          let w2 := weighted_step decayedWeight (ofT x) (if r then zero else w) in Some (w2, w2)) pKey 0%nat ws
    | None, None =>
        by_rows true (Some Invalid) (fun i w =>
          do x <- nth_error pSrc i;
          let w2 := weighted_step decayedWeight (ofT x) w in Some (w2, w2)) pKey 0%nat ws
    end.
End Averages.

(** ** The types GetEmaByFunction picks *)
Inductive ty := Bool | I8 | I16 | I32 | I64 | U8 | U16 | U32 | U64 | F32 | F64 | LD | Other.
Inductive efun := CUMSUM | CUMPROD | CUMNANMIN | CUMNANMAX | CUMMIN | CUMMAX | FINDNTH | DECAY | NORMAL | WEIGHTED.
(* the type of a column or a time array; [Bool] is computed as int8_t *)
Definition item (t : ty) : Z := match t with Bool | I8 | U8 => 1 | I16 | U16 => 2 | I32 | U32 | F32 => 4 | I64 | U64 | F64 => 8 | LD => 16 | Other => 0 end.
(* Ema.cpp:1952-1975 GetEmaByStep2: the type U of the output *)
Definition ema_out (timeType : ty) : option ty :=
  match timeType with F32 | F64 | I32 | I64 | U32 | U64 => Some F64 | LD => Some LD | _ => None end.
(* Ema.cpp:1987-2030, 2159-2202 *)
Definition cum_out (t : ty) : option ty :=
  match t with F32 => Some F32 | F64 => Some F64 | LD => Some LD | Bool | I8 | I16 | I32 | I64 => Some I64 | U8 | U16 | U32 | U64 => Some U64 | Other => None end.
Definition same_out (t : ty) : option ty := match t with Other => None | _ => Some t end.
(* Ema.cpp:1980-2246 GetEmaByFunction: the type of the numpy output and the type U that the function writes *)
Definition GetEmaByFunction (f : efun) (inputType timeType : ty) : option (ty * ty) :=
  match f with
  | CUMSUM | CUMPROD => do u <- cum_out inputType; Some (u, u)
  | CUMNANMIN | CUMNANMAX | CUMMIN | CUMMAX => do u <- same_out inputType; Some (inputType, u)
  | FINDNTH => Some (I32, I32)
  | DECAY | NORMAL | WEIGHTED => match inputType with Other => None | _ => do u <- ema_out timeType; Some (F64, u) end
  end.
