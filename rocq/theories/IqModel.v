(** Model of InterpExtrap2d of /repo/src/Ema.cpp from its arguments to its result.  The function itself is that of InterpModel, the arrays those of EaModel.
    Simplified: exact arithmetic, a NaN is None; the points are numbers; strides are multiples of the item size; memory can always be had.  No proofs in this
    file. *)
From Verif Require Import Base Mem AllModel EaModel.
From Verif Require InterpModel BnModel.
From Coq Require Import QArith Qcanon.
Local Open Scope Z_scope.

(* the values: the number of dimensions; with one dimension its items *)
Record values := mkValues { v_dims : Z; v_items : arg (option Qc) }.
(* the points: the shape, whether NumPy calls the array C contiguous, all items *)
Record grid := mkGrid { g_shape : list Z; g_flat : bool; g_items : arg Qc }.

(* Ema.cpp:2811-2840: whether there are two dimensions, and the number of points of a row; [n]: the number of values *)
Definition extent (n : Z) (s1 s2 : list Z) : outcome (bool * Z) :=
  match s1, s2 with
  | [n1; m1], [n2; m2] => if negb (n =? n1) || negb (n =? n2) then Error else if negb (m1 =? m2) || (m1 <? 2) then Error else Done (true, m1)
  | [m1], [m2] => if negb (m1 =? m2) || (m1 <? 2) then Error else Done (false, m1)
  | _, _ => Undefined
  end.
(* Ema.cpp:2770-2885; the type and the elements of the result.  The stride of the values is not looked at; an array without dimensions is asked for its
   first *)
Definition InterpCall (ord : sched) (threaded : bool) (arr : option values) (xp yp : option grid) (clip : Z) : outcome (Z * list (option Qc)) :=
  match arr, xp, yp with
  | Some a, Some p, Some q =>
      if negb (BnModel.int32_ok clip) then Error
      else if 1 <? v_dims a then Error
      else if negb (length (g_shape p) =? length (g_shape q))%nat || (2 <? length (g_shape q))%nat then Error
      else if negb (g_flat p && g_flat q) then Error
      else if v_dims a <? 1 then Undefined
      else obind (extent (a_len (v_items a)) (g_shape p) (g_shape q)) (fun e =>
           let d := a_dtype (v_items a) in
           if negb (d =? a_dtype (g_items p)) || negb (d =? a_dtype (g_items q)) then Error
           else if negb (d =? 12) && negb (d =? 11) then Error
           else obind (undef (read_arg (v_items a))) (fun xs =>
                obind (undef (read_arg (g_items p))) (fun ps =>
                obind (undef (read_arg (g_items q))) (fun qs =>
                match InterpModel.InterpExtrap2d ord threaded (fst e) (negb (clip =? 0)) (Z.to_nat (snd e)) xs ps qs with
                | InterpModel.IError => Error
                | InterpModel.IUndef => Undefined
                | InterpModel.IOk out => Done (d, out)
                end))))
  | _, _, _ => Error
  end.
