(** src/Ema.cpp: rolling sums, means and variances of one array. No proofs in this file. *)
From Coq Require Import QArith QArith.Qcanon.
From Verif Require Import Base GrpxModel.
Local Open Scope Z_scope.

Section Loop.
  Context {T U S : Type} (prime : Z -> T -> S -> S * U) (slide : T -> T -> S -> S * U).
  (* the priming loop: rows 0, 1, ... before the window is full *)
  Fixpoint prime_loop (i : Z) (l : list T) (s : S) : list U * S :=
    match l with
    | [] => ([], s)
    | x :: l' => let '(s', u) := prime i x s in let '(us, s'') := prime_loop (i + 1) l' s' in (u :: us, s'')
    end.
  (* the second loop: row i and row i - windowSize *)
  Fixpoint slide_loop (l : list (T * T)) (s : S) : list U :=
    match l with [] => [] | (x, y) :: l' => let '(s', u) := slide x y s in u :: slide_loop l' s' end.
  (* Ema.cpp:97-120: the two loops that all these functions share. A negative window starts the second loop at a negative
     row: None, memory before the arrays is read and written *)
  Definition roll (win : Z) (l : list T) (s : S) : option (list U) :=
    if win <? 0 then None
    else let '(us, s') := prime_loop 0 (firstn (Z.to_nat win) l) s in
         Some (us ++ slide_loop (combine (skipn (Z.to_nat win) l) l) s').
End Loop.

Section Sums.
  Context {T U : Type} (conv : T -> U) (zero : U) (add sub : U -> U -> U) (div : U -> Z -> U) (ok : T -> bool).
  (* Ema.cpp:97-120 RollingSum *)
  Definition RollingSum (win : Z) (l : list T) : option (list U) :=
    roll (fun i x s => let s' := add s (conv x) in (s', s')) (fun x y s => let s' := sub (add s (conv x)) (conv y) in (s', s')) win l zero.
  (* Ema.cpp:122-191 RollingNanSum; [ok]: the item is not the invalid of its type *)
  Definition RollingNanSum (win : Z) (l : list T) : option (list U) :=
    roll (fun i x s => let s' := add_ok conv add ok s x in (s', s')) (fun x y s => let s' := sub_ok conv sub ok (add_ok conv add ok s x) y in (s', s')) win l zero.
  (* Ema.cpp:193-216 RollingMean *)
  Definition RollingMean (win : Z) (l : list T) : option (list U) :=
    roll (fun i x s => let s' := add s (conv x) in (s', div s' (i + 1))) (fun x y s => let s' := sub (add s (conv x)) (conv y) in (s', div s' win)) win l zero.
  (* Ema.cpp:218-260 RollingNanMean; [ok]: temp == temp, true of all integers; the count is exact *)
  Definition RollingNanMean (win : Z) (l : list T) : option (list U) :=
    roll (fun i x '(s, c) => let s' := add_ok conv add ok s x in let c' := c + count_ok ok x in ((s', c'), div s' c'))
         (fun x y '(s, c) => let s' := sub_ok conv sub ok (add_ok conv add ok s x) y in let c' := c + count_ok ok x - count_ok ok y in ((s', c'), div s' c')) win l (zero, 0).
End Sums.

(** ** Variances, in exact arithmetic; [None]: NaN *)
Local Open Scope Qc_scope.
Definition qc (n : Z) : Qc := Q2Qc (inject_Z n).
Definition nqc (n : nat) : Qc := qc (Z.of_nat n).
Section Vars.
  Context {V : Type} (root : option Qc -> V). (* the square root for the two standard deviations, else the identity *)
  (* Ema.cpp:327-362 RollingVar, 364-399 RollingStd of numbers; row 0: 0 / 0; a window of 0: 1 / 0, and 0 * infinity *)
  Definition RollingVar (win : Z) (l : list Qc) : option (list V) :=
    let count_inv := 1 / qc win in
    roll (fun i x '(amean, asqr) =>
            let delta := x - amean in
            let amean' := amean + delta / qc (i + 1) in
            let asqr' := asqr + delta * (x - amean') in
            ((amean', asqr'), root (if (i =? 0)%Z then None else Some (asqr' / qc i))))
         (fun x y '(amean, asqr) =>
            let delta := x - y in
            let old := y - amean in
            let amean' := amean + delta * count_inv in
            let item := x - amean' in
            let asqr' := asqr + (item + old) * delta in
            ((amean', asqr'), root (if (win =? 0)%Z then None else Some (asqr' * count_inv)))) win l (0, 0).

  (* Ema.cpp:401-486 RollingNanVar, 488-573 RollingNanStd; count_inv: None when it is 1 / 0, then no row of the window is a number *)
  Definition inv_of (n : Z) : option Qc := if (n =? 0)%Z then None else Some (1 / qc n).
  Definition times (a : Qc) (b : option Qc) : option Qc := match b with Some b => Some (a * b) | None => None end.
  Definition or0 (b : option Qc) : Qc := match b with Some b => b | None => 0 end.
  Definition clamp (a : Qc) : Qc := if Qclt_le_dec a 0 then 0 else a.
  Definition RollingNanVar (win : Z) (l : list (option Qc)) : option (list V) :=
    roll (fun i x '(amean, asqr, count, inv) =>
            match x with
            | Some x =>
                let count' := (count + 1)%Z in
                let delta := x - amean in
                let amean' := amean + delta / qc count' in
                let asqr' := asqr + delta * (x - amean') in
                ((amean', asqr', count', inv), root (Some (asqr' / qc count')))
            | None => ((amean, asqr, count, inv), root None)
            end)
         (fun x y '(amean, asqr, count, inv) =>
            let '(amean', asqr', count', inv') :=
              match x, y with
              | Some x, Some y =>
                  let delta := x - y in
                  let old := y - amean in
                  let amean' := amean + delta * or0 inv in
                  let item := x - amean' in
                  (amean', asqr + (item + old) * delta, count, inv)
              | Some x, None =>
                  let count' := (count + 1)%Z in
                  let delta := x - amean in
                  let amean' := amean + delta / qc count' in
                  (amean', asqr + delta * (x - amean'), count', inv_of count')
              | None, Some y =>
                  let count' := (count - 1)%Z in
                  if (0 <? count')%Z then
                    let delta := amean in (* delta = old = amean *)
                    let amean' := amean - delta / qc count' in
                    (amean', asqr - delta * (amean - amean'), count', inv_of count')
                  else (0, 0, count', inv_of count')
              | None, None => (amean, asqr, count, inv)
              end in
            let asqr'' := clamp asqr' in
            ((amean', asqr'', count', inv'), root (times asqr'' inv'))) win l (0, 0, 0%Z, inv_of win).
End Vars.
