(** Model of the group variance and standard deviation of /repo/src/GroupBy.cpp.
    The values are abstract: T the input, U the output, D the type TempType in which the code computes (double for float32 input,
    otherwise U).  The arithmetic is that of the machine, whatever it is: the functions here do the same operations in the same order. *)
From Verif Require Import Base Mem AccumModel.
Local Open Scope Z_scope.

Section Var.
  (* [okT]: not the invalid value; [uinv]: the invalid value of U; [convD]: the cast (TempType)temp; [castf]: the cast (U) of a TempType;
     [divD]: division by a count, cast to TempType *)
  Context {T U D : Type} (okT : T -> bool) (uinv zero : U) (zeroD : D) (convD : T -> D) (castf : D -> U)
          (addD subD mulD : D -> D -> D) (divD : D -> Z -> D) (sqrtU : U -> U).

  (* one bin: pOut[i], pCountOut[i], pDataTmp[i - binLow], sumsquares[i] *)
  Record vcell := mkV { v_out : U; v_count : Z; v_tmp : D; v_sq : D }.
  Definition set_vout (x : U) (c : vcell) : vcell := mkV x (v_count c) (v_tmp c) (v_sq c).
  Definition set_count (n : Z) (c : vcell) : vcell := mkV (v_out c) n (v_tmp c) (v_sq c).
  Definition set_tmp (x : D) (c : vcell) : vcell := mkV (v_out c) (v_count c) x (v_sq c).
  Definition set_sq (x : D) (c : vcell) : vcell := mkV (v_out c) (v_count c) (v_tmp c) x.

  (* GroupBy.cpp:970-980 and 1077-1087: where mean[i - binLow] is kept: pDataTmp for float32 input, otherwise the output itself *)
  Record place := mkPlace { p_get : vcell -> D; p_set : D -> vcell -> vcell; p_tmp : bool }.
  Definition in_tmp : place := mkPlace v_tmp set_tmp true.
  Context (p : place).

  (* GroupBy.cpp:982-1006 loop_body1 of AccumVar *)
  Definition var_count (c : vcell) (x : T) : vcell :=
    if 0 <=? v_count c then
      if negb (okT x) then set_count (-1) c else set_count (v_count c + 1) (p_set p (addD (p_get p c) (convD x)) c)
    else c.
  (* GroupBy.cpp:1009-1015 loop_body2 *)
  Definition var_mean (c : vcell) : vcell := if 0 <=? v_count c then p_set p (divD (p_get p c) (v_count c)) c else c.
  (* GroupBy.cpp:1022-1037 loop_body3 *)
  Definition var_square (c : vcell) (x : T) : vcell :=
    if 0 <=? v_count c then let diff := subD (convD x) (p_get p c) in set_sq (addD (v_sq c) (mulD diff diff)) c else c.
  (* GroupBy.cpp:1040-1050 and 1133-1143 loop_body4 *)
  Definition var_out (c : vcell) : vcell := set_vout (if 1 <? v_count c then castf (divD (v_sq c) (v_count c - 1)) else uinv) c.

  (* GroupBy.cpp:1089-1103 loop_body1 of AccumNanVar *)
  Definition nanvar_count (c : vcell) (x : T) : vcell :=
    if okT x then set_count (v_count c + 1) (p_set p (addD (p_get p c) (convD x)) c) else c.
  (* GroupBy.cpp:1106-1109 loop_body2 *)
  Definition nanvar_mean (c : vcell) : vcell := p_set p (divD (p_get p c) (v_count c)) c.
  (* GroupBy.cpp:1116-1130 loop_body3 *)
  Definition nanvar_square (c : vcell) (x : T) : vcell :=
    if okT x then let diff := subD (convD x) (p_get p c) in set_sq (addD (v_sq c) (mulD diff diff)) c else c.

  Definition bind {A B} (o : option A) (f : A -> option B) : option B := match o with Some a => f a | None => None end.

  (* the common shape of the two; None: an access outside of an array.  sumsquares has binHigh elements and is cleared *)
  Definition variance (count : vcell -> T -> vcell) (mean : vcell -> vcell) (square : vcell -> T -> vcell)
      (pass low high : Z) (rows : list (Z * T)) (cells : list vcell) : option (list vcell) :=
    let n := Z.to_nat (high - low) in
    bind (if pass <=? 0 then each_bin (set_vout zero) n low cells else Some cells) (fun c1 =>
    bind (if p_tmp p then each_bin (set_tmp zeroD) n low c1 else Some c1) (fun c2 =>
    bind (each_row count low high rows c2) (fun c3 =>
    bind (each_bin mean n low c3) (fun c4 =>
    bind (each_bin (set_sq zeroD) (Z.to_nat high) 0 c4) (fun c5 =>
    bind (each_row square low high rows c5) (fun c6 =>
    each_bin var_out n low c6)))))).

  (* GroupBy.cpp:947-1052 *)
  Definition AccumVar := variance var_count var_mean var_square.
  (* GroupBy.cpp:1055-1145 *)
  Definition AccumNanVar := variance nanvar_count nanvar_mean nanvar_square.
  Definition root (c : vcell) : vcell := set_vout (sqrtU (v_out c)) c.
  (* GroupBy.cpp:1148-1159 *)
  Definition AccumStd (pass low high : Z) (rows : list (Z * T)) (cells : list vcell) : option (list vcell) :=
    bind (AccumVar pass low high rows cells) (each_bin root (Z.to_nat (high - low)) low).
  (* GroupBy.cpp:1162-1173 *)
  Definition AccumNanStd (pass low high : Z) (rows : list (Z * T)) (cells : list vcell) : option (list vcell) :=
    bind (AccumNanVar pass low high rows cells) (each_bin root (Z.to_nat (high - low)) low).

  (* GroupBy.cpp:4099-4150 GroupByCall: one call over all rows, pass -1; there is no other way to call these functions (4681, 2898-3137).
     [out0], [tmp0], [sq0]: the uninitialised arrays; the counts are zero (4775-4786) *)
  Definition fresh (out0 : list U) (tmp0 sq0 : list D) : list vcell :=
    map (fun x => mkV (fst x) 0 (fst (snd x)) (snd (snd x))) (combine out0 (combine tmp0 sq0)).
  Definition run_var (f : Z -> Z -> Z -> list (Z * T) -> list vcell -> option (list vcell)) (low high : Z) (rows : list (Z * T))
      (out0 : list U) (tmp0 sq0 : list D) : option (list U) :=
    option_map (map v_out) (f (-1) low high rows (fresh out0 tmp0 sq0)).
End Var.
Arguments vcell U D : clear implicits.
Arguments place U D : clear implicits.

(* for input other than float32, TempType is U and the mean is kept in the output *)
Definition in_out {U} : place U U := mkPlace v_out set_vout false.
