(** Model of the accumulating group-by functions of /repo/src/GroupBy.cpp (sum, mean, min, max and their nan
    variants), in one pass over all rows and scattered over the threads.
    Value types are abstract: T the input, U the output type. *)
From Verif Require Import Base Mem.
Local Open Scope Z_scope.

(** ** Loops over bins and rows

    The output array and the array of counts are modelled as one list of cells (output, count). *)
Section Loops.
  Context {C T : Type}.
  (* a loop for (i = low; i < high; i++) over the cells *)
  Fixpoint each_bin (f : C -> C) (n : nat) (low : Z) (cells : list C) : option (list C) :=
    match n with
    | O => Some cells
    | S n' => match zrd cells low with
              | Some c => match zwr cells low (f c) with Some cells' => each_bin f n' (low + 1) cells' | None => None end
              | None => None
              end
    end.

  (* GroupBy.cpp:193-196 and the loops that use it: each row whose key is in the range updates its cell.
     [rows] are pairs (key, value). *)
  Fixpoint each_row (step : C -> T -> C) (low high : Z) (rows : list (Z * T)) (cells : list C) : option (list C) :=
    match rows with
    | [] => Some cells
    | (k, x) :: rows' =>
        if (low <=? k) && (k <? high) then
          match zrd cells k with
          | Some c => match zwr cells k (step c x) with Some cells' => each_row step low high rows' cells' | None => None end
          | None => None
          end
        else each_row step low high rows' cells
    end.
End Loops.

Section Accum.
  Context {T U : Type}.
  Definition cell := (U * Z)%type.

  (* The common shape: clear the range on the first pass (pass <= 0), accumulate, finish if it is the only
     pass (pass < 0). *)
  Record acc_fun := mkAcc { a_clear : cell -> cell; a_step : cell -> T -> cell; a_finish : cell -> cell }.

  Definition accum (a : acc_fun) (pass low high : Z) (rows : list (Z * T)) (cells : list cell) : option (list cell) :=
    match (if pass <=? 0 then each_bin (a_clear a) (Z.to_nat (high - low)) low cells else Some cells) with
    | Some c1 =>
        match each_row (a_step a) low high rows c1 with
        | Some c2 => if pass <? 0 then each_bin (a_finish a) (Z.to_nat (high - low)) low c2 else Some c2
        | None => None
        end
    | None => None
    end.
End Accum.
Arguments cell U : clear implicits.
Arguments acc_fun T U : clear implicits.

(** ** The functions *)
Section Funs.
  (* [okT]/[okU]: not the invalid value of the type; [uinv]: the invalid value of the output type;
     [conv]: the cast (U)temp; [add]: += ; [div]: division by a count; [lt]: the < of the type *)
  Context {T U : Type} (okT : T -> bool) (okU : U -> bool) (uinv zero : U) (conv : T -> U)
          (add : U -> U -> U) (div : U -> Z -> U) (lt : U -> U -> bool).

  Definition same (c : cell U) : cell U := c.
  Definition set_out (x : U) (c : cell U) : cell U := (x, snd c).

  (* GroupBy.cpp:222-264 *)
  Definition AccumSum : acc_fun T U := mkAcc (set_out zero)
    (fun c x => let '(o, n) := c in
       if 0 <=? n then if okT x then (add o (conv x), n) else (uinv, -1) else c)
    same.

  (* GroupBy.cpp:352-380 *)
  Definition AccumNanSum : acc_fun T U := mkAcc (set_out zero)
    (fun c x => let '(o, n) := c in if okT x then (add o (conv x), n) else c)
    same.

  (* GroupBy.cpp:444-501; AccumMax (546-602) is the same with > *)
  Definition AccumMin : acc_fun T U := mkAcc (set_out uinv)
    (fun c x => let '(o, n) := c in
       if 0 <=? n then
         if negb (okT x) then (uinv, -1)
         else if n =? 0 then (conv x, 1)
         else if lt (conv x) o then (conv x, n) else c
       else c)
    same.

  (* GroupBy.cpp:504-543; AccumNanMax (605-643) is the same with < *)
  Definition AccumNanMin : acc_fun T U := mkAcc (set_out uinv)
    (fun c x => let '(o, n) := c in
       if okT x then if negb (okU o) || lt (conv x) o then (conv x, n) else c else c)
    same.

  Definition mean_finish (c : cell U) : cell U := let '(o, n) := c in (if 0 <? n then div o n else uinv, n).

  (* GroupBy.cpp:646-705 *)
  Definition AccumMean : acc_fun T U := mkAcc (set_out zero)
    (fun c x => let '(o, n) := c in
       if 0 <=? n then if negb (okT x) then (uinv, -1) else (add o (conv x), n + 1) else c)
    mean_finish.

  (* GroupBy.cpp:815-863 *)
  Definition AccumNanMean : acc_fun T U := mkAcc (set_out zero)
    (fun c x => let '(o, n) := c in if okT x then (add o (conv x), n + 1) else c)
    mean_finish.

  (** ** Scatter and gather *)

  (* GroupBy.cpp:4039-4091: one thread calls the function for each block it gets, pass = 0, 1, 2, ... *)
  Fixpoint core_run {S} (call : Z -> list (Z * T) -> S -> option S) (pass : Z) (blocks : list (list (Z * T))) (s : S) : option S :=
    match blocks with
    | [] => Some s
    | b :: bs => match call pass b s with Some s' => core_run call (pass + 1) bs s' | None => None end
    end.

  (* The gather loops: for each core that did work, for each bin.  pInvFinal is the count array of core 0
     (an alias, GroupBy.cpp:2509-2513), so for core 0 the count read is the current pInvFinal.  State:
     (output, pInvFinal, total count) per bin. *)
  Definition gcell := (U * Z * Z)%type.

  Fixpoint gather_bins (step : bool -> gcell -> cell U -> gcell) (first : bool) (n : nat) (low : Z) (core : list (cell U))
      (out : list gcell) : option (list gcell) :=
    match n with
    | O => Some out
    | S n' =>
        match zrd out low, zrd core low with
        | Some (o, inv, tot), Some (d, c) =>
            match zwr out low (step first (o, inv, tot) (d, if first then inv else c)) with
            | Some out' => gather_bins step first n' (low + 1) core out'
            | None => None
            end
        | _, _ => None
        end
    end.

  (* [cores]: for each core whether it did work, and its cells *)
  Fixpoint gather_cores (step : bool -> gcell -> cell U -> gcell) (first : bool) (low high : Z)
      (cores : list (bool * list (cell U))) (out : list gcell) : option (list gcell) :=
    match cores with
    | [] => Some out
    | (did, core) :: cs =>
        if did then match gather_bins step first (Z.to_nat (high - low)) low core out with
                    | Some out' => gather_cores step false low high cs out'
                    | None => None
                    end
        else gather_cores step false low high cs out
    end.

  Record gather_fun := mkGather { g_fill : option U; g_step : bool -> gcell -> cell U -> gcell; g_finish : gcell -> U }.

  (* GroupBy.cpp:2502-2551 *)
  Definition GatherSum : gather_fun := mkGather (Some zero)
    (fun first s c => let '(o, inv, t) := s in let '(d, n) := c in
       if inv =? -1 then if first then (uinv, inv, t) else s
       else if n =? -1 then (uinv, -1, t)
       else (add o d, inv, t))
    (fun s => fst (fst s)).

  (* GroupBy.cpp:2554-2575 *)
  Definition GatherNanSum : gather_fun := mkGather (Some zero)
    (fun first s c => let '(o, inv, t) := s in (add o (fst c), inv, t))
    (fun s => fst (fst s)).

  (* GroupBy.cpp:2578-2641 *)
  Definition GatherMean : gather_fun := mkGather (Some zero)
    (fun first s c => let '(o, inv, t) := s in let '(d, n) := c in
       if inv =? -1 then if first then (uinv, inv, t) else s
       else if n =? -1 then (uinv, -1, t)
       else (add o d, inv, t + n))
    (fun s => let '(o, _, t) := s in if (0 <? t) && okU o then div o t else uinv).

  (* GroupBy.cpp:2644-2686 *)
  Definition GatherNanMean : gather_fun := mkGather (Some zero)
    (fun first s c => let '(o, inv, t) := s in (add o (fst c), inv, t + snd c))
    (fun s => let '(o, _, t) := s in if 0 <? t then div o t else uinv).

  (* GroupBy.cpp:2689-2724; GatherNanMax (2794-2829) is the same with > *)
  Definition GatherNanMin : gather_fun := mkGather None
    (fun first s c => let '(o, inv, t) := s in let '(d, n) := c in
       if okU d then if negb (okU o) || lt d o then (d, inv, t) else s else s)
    (fun s => fst (fst s)).

  (* GroupBy.cpp:2727-2791; GatherMax (2832-2896) is the same with > *)
  Definition GatherMin : gather_fun := mkGather None
    (fun first s c => let '(o, inv, t) := s in let '(d, n) := c in
       if (n =? 0) || (inv =? -1) then s
       else if n =? -1 then (uinv, -1, t)
       else if negb (okU o) || lt d o then (d, inv, t) else s)
    (fun s => fst (fst s)).

  (* all gather functions; [out0] is the uninitialised output array.  A memset clears all numUnique
     elements (g_fill = Some zero), the min and max functions fill only the range with the invalid value. *)
  Definition gather (g : gather_fun) (low high : Z) (cores : list (bool * list (cell U))) (out0 : list U) : option (list U) :=
    let inv0 := match cores with [] => [] | (_, c) :: _ => map snd c end in
    let start := map (fun p => (match g_fill g with Some z => z | None => fst p end, snd p, 0)) (combine out0 inv0) in
    match (match g_fill g with
           | Some _ => Some start
           | None => gather_bins (fun _ s _ => let '(_, inv, t) := s in (uinv, inv, t)) false (Z.to_nat (high - low)) low
                       (map (fun x => (x, 0)) out0) start
           end) with
    | Some s1 =>
        match gather_cores (g_step g) true low high cores s1 with
        | Some s2 =>
            match gather_bins (fun _ s _ => let '(_, inv, t) := s in (g_finish g s, inv, t)) false (Z.to_nat (high - low)) low
                    (map (fun x => (x, 0)) out0) s2 with
            | Some s3 => Some (map (fun s => fst (fst s)) s3)
            | None => None
            end
        | None => None
        end
    | None => None
    end.

  (* GroupBy.cpp:4398-4575: [asg] lists the blocks of rows each core got, [junks] the uninitialised output
     buffers of the cores; the count buffers start at zero. *)
  Fixpoint scatter (call : Z -> list (Z * T) -> list (cell U) -> option (list (cell U)))
      (asg : list (list (list (Z * T)))) (junks : list (list U)) : option (list (bool * list (cell U))) :=
    match asg, junks with
    | [], _ => Some []
    | blocks :: asg', junk :: junks' =>
        match core_run call 0 blocks (map (fun x => (x, 0)) junk) with
        | Some cells =>
            match scatter call asg' junks' with
            | Some cs => Some ((negb (match blocks with [] => true | _ => false end), cells) :: cs)
            | None => None
            end
        | None => None
        end
    | _ :: _, [] => None
    end.

  Definition GroupByScatter (a : acc_fun T U) (g : gather_fun) (low high : Z) (asg : list (list (list (Z * T))))
      (junks : list (list U)) (out0 : list U) : option (list U) :=
    match scatter (fun pass rows cells => accum a pass low high rows cells) asg junks with
    | Some cores => gather g low high cores out0
    | None => None
    end.

  (* GroupBy.cpp:4099-4170 with typeCall ANY_GROUPBY_FUNC: one call over all rows (pass -1) *)
  Definition GroupByOne (a : acc_fun T U) (low high : Z) (rows : list (Z * T)) (out0 : list U) : option (list U) :=
    option_map (map fst) (accum a (-1) low high rows (map (fun x => (x, 0)) out0)).
End Funs.

(** ** The functions for float32, which accumulate in a float64 array

    [D] is the type of the temporary array.  The cells are (output, count, temporary); the temporary array is
    indexed by index - binLow in the code and by the bin here. *)
Section Float.
  Context {T U D : Type} (okT : T -> bool) (uinv zero : U) (zeroD invD : D) (convD : T -> D) (castf : D -> U)
          (addD : D -> D -> D) (divD : D -> Z -> D).
  Definition tcell := (U * Z * D)%type.

  (* [t_from_low]: whether the memset of the output starts at pOut + binLow or at pOut *)
  Record tmp_fun := mkTmp { t_from_low : bool; t_step : tcell -> T -> tcell; t_copy : tcell -> tcell; t_finish : tcell -> tcell }.

  Definition accum_tmp (t : tmp_fun) (pass low high : Z) (rows : list (Z * T)) (cells : list tcell) : option (list tcell) :=
    let n := Z.to_nat (high - low) in
    match (if pass <=? 0 then
             match each_bin (fun c => let '(o, k, d) := c in (zero, k, d)) n (if t_from_low t then low else 0) cells with
             | Some c => each_bin (fun c => let '(o, k, d) := c in (o, k, zeroD)) n low c
             | None => None
             end
           else Some cells) with
    | Some c1 =>
        match each_row (t_step t) low high rows c1 with
        | Some c2 =>
            match (if high - low <? Z.of_nat (length rows) then each_bin (t_copy t) n low c2
                   else each_row (fun c _ => t_copy t c) low high rows c2) with
            | Some c3 => if pass <? 0 then each_bin (t_finish t) n low c3 else Some c3
            | None => None
            end
        | None => None
        end
    | None => None
    end.

  Definition copy_valid (c : tcell) : tcell := let '(o, k, d) := c in (if 0 <=? k then castf d else uinv, k, d).
  Definition copy_all (c : tcell) : tcell := let '(o, k, d) := c in (castf d, k, d).
  Definition mean_tmp (c : tcell) : tcell := let '(o, k, d) := c in (if 0 <? k then castf (divD d k) else uinv, k, d).

  (* GroupBy.cpp:268-349 *)
  Definition AccumSumFloat : tmp_fun := mkTmp true
    (fun c x => let '(o, k, d) := c in if 0 <=? k then if okT x then (o, k, addD d (convD x)) else (o, -1, d) else c)
    copy_valid (fun c => c).

  (* GroupBy.cpp:385-441 *)
  Definition AccumNanSumFloat : tmp_fun := mkTmp false
    (fun c x => let '(o, k, d) := c in if okT x then (o, k, addD d (convD x)) else c)
    copy_all (fun c => c).

  (* GroupBy.cpp:708-812 *)
  Definition AccumMeanFloat : tmp_fun := mkTmp true
    (fun c x => let '(o, k, d) := c in
       if 0 <=? k then if negb (okT x) then (o, -1, invD) else (o, k + 1, addD d (convD x)) else c)
    copy_valid mean_tmp.

  (* GroupBy.cpp:866-944 *)
  Definition AccumNanMeanFloat : tmp_fun := mkTmp false
    (fun c x => let '(o, k, d) := c in if okT x then (o, k + 1, addD d (convD x)) else c)
    copy_all mean_tmp.

  (* one call over all rows; [tmp0] is the uninitialised temporary array *)
  Definition GroupByOneFloat (t : tmp_fun) (low high : Z) (rows : list (Z * T)) (out0 : list U) (tmp0 : list D) : option (list U) :=
    option_map (map (fun c => fst (fst c)))
      (accum_tmp t (-1) low high rows (map (fun p => (fst p, 0, snd p)) (combine out0 tmp0))).

  (* the cores run with their own temporary arrays; [junks] are their uninitialised arrays *)
  Fixpoint scatter_tmp (t : tmp_fun) (low high : Z) (asg : list (list (list (Z * T)))) (junks : list (list (U * D)))
    : option (list (bool * list (cell U))) :=
    match asg, junks with
    | [], _ => Some []
    | blocks :: asg', junk :: junks' =>
        match core_run (fun pass rows cells => accum_tmp t pass low high rows cells) 0 blocks (map (fun p => (fst p, 0, snd p)) junk) with
        | Some cells =>
            match scatter_tmp t low high asg' junks' with
            | Some cs => Some ((negb (match blocks with [] => true | _ => false end), map fst cells) :: cs)
            | None => None
            end
        | None => None
        end
    | _ :: _, [] => None
    end.

  Definition GroupByScatterFloat (t : tmp_fun) (g : @gather_fun U) (low high : Z) (asg : list (list (list (Z * T))))
      (junks : list (list (U * D))) (out0 : list U) : option (list U) :=
    match scatter_tmp t low high asg junks with
    | Some cores => gather uinv g low high cores out0
    | None => None
    end.
End Float.
