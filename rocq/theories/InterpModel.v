(** src/Ema.cpp InterpExtrap2d: piecewise linear interpolation.  Exact arithmetic; a NaN is None.  No proofs in this file. *)
From Verif Require Import Base Mem Par.
From Verif Require Export HeapModel.
From Coq Require Export QArith Qcanon.
Local Open Scope Qc_scope.

Definition gtQ (a b : Qc) : bool := if Qclt_le_dec b a then true else false.
Section Row.
  (* [xp] and [yp]: all rows one after the other; [o]: where the row starts *)
  Context (xp yp : list Qc) (o M : nat).
  (* Ema.cpp:2571-2572, 2606-2607, 2652-2653, 2686-2687: while (xi > xp[j] && j < M) j++; result None: xp[j] is outside of the array *)
  Fixpoint seek (fuel j : nat) (xi : Qc) : option nat :=
    match fuel with
    | 0%nat => None
    | S f => do v <- nth_error xp (o + j); if gtQ xi v && (j <? M)%nat then seek f (S j) xi else Some j
    end.
  (* Ema.cpp:2563-2590 (no clipping), 2598-2623 (clipping), mat_interp_extrap; Ema.cpp:2644-2671, 2678-2705 mat_interp: the same for the one row there is *)
  Definition interp (clip : bool) (x : option Qc) : option (option Qc) :=
    match x with
    | None => Some None
    | Some xi =>
        do x0 <- nth_error xp o; do y0 <- nth_error yp o;
        if gtQ xi x0 then
          do j <- seek M 1%nat xi;
          if (j =? M)%nat then
            do yl <- nth_error yp (o + (M - 1));
            if clip then Some (Some yl)
            else
              do yk <- nth_error yp (o + (M - 2)); do xl <- nth_error xp (o + (M - 1)); do xk <- nth_error xp (o + (M - 2));
              Some (Some (yl + (yl - yk) / (xl - xk) * (xi - xl)))
          else
            do ya <- nth_error yp (o + (j - 1)); do yb <- nth_error yp (o + j); do xa <- nth_error xp (o + (j - 1)); do xb <- nth_error xp (o + j);
            Some (Some ((yb - ya) * (xi - xa) / (xb - xa) + ya))
        else if clip then Some (Some y0)
        else
          do y1 <- nth_error yp (o + 1); do x1 <- nth_error xp (o + 1);
          Some (Some (y0 + (y1 - y0) / (x1 - x0) * (xi - x0)))
    end.
End Row.
Inductive interp_result := IError | IUndef | IOk (out : list (option Qc)).
(* Ema.cpp:2728-2762 InterpolateExtrap and 2770-2885 InterpExtrap2d: [two]: two dimensions, the rows of [xp] and [yp] have [M] items *)
Definition InterpExtrap2d (ord : sched) (threaded two clip : bool) (M : nat) (x : list (option Qc)) (xp yp : list Qc) : interp_result :=
  if (M <? 2)%nat || negb (length xp =? (if two then length x * M else M))%nat || negb (length yp =? (if two then length x * M else M))%nat then IError
  else match par_map ord threaded CHUNK (length x) (fun i => do v <- nth_error x i; interp xp yp (if two then i * M else 0)%nat M clip v) None with
       | Some out => IOk out
       | None => IUndef
       end.
