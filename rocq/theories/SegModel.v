(** Model of CMathWorker::SegmentBins, /repo/src/MathWorker.h:310-359. *)
From Verif Require Import Base.

(* MathWorker.h:313-325: the number of bands.  [futex] is GetFutexWakeup() (the pool's thread count),
   [maxCores] the caller's clamp (0 = none). *)
Definition seg_cores (bins futex maxCores : Z) : Z :=
  let cores := if ((0 <? maxCores) && (maxCores <? futex))%Z then maxCores else futex in
  if (bins <? cores)%Z then bins else cores.

(* MathWorker.h:339-356: the loop over i = 0 .. cores-1 ([n] iterations left), state (remainder, low);
   every iteration stores BinLow, BinHigh *)
Fixpoint seg_loop (n : nat) (dividend remainder low : Z) : list (Z * Z) :=
  match n with
  | O => []
  | S n' =>
      let high := (low + dividend)%Z in
      let '(high, remainder) := if (0 <? remainder)%Z then ((high + 1)%Z, (remainder - 1)%Z) else (high, remainder) in
      (low, high) :: seg_loop n' dividend remainder high
  end.

(* MathWorker.h:310-359.  The bands (BinLow, BinHigh) in order.  BinNum and pUserMemory are not modelled. *)
Definition segment_bins (bins futex maxCores : Z) : list (Z * Z) :=
  let cores := seg_cores bins futex maxCores in
  if (0 <? cores)%Z then seg_loop (Z.to_nat cores) (bins / cores) (bins mod cores) 0 else [].
