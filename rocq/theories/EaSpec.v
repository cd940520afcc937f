(** What EmaAll32 should return. *)
From Coq Require Import Reals.
From Verif Require Import Base Mem AccumSpec EmaModel EmaSpec AllModel AllSpec EaModel.
Local Open Scope Z_scope.

(** The functions by their numbers: sum, product, number in the group; the extremes of the values, skipping invalid ones or not; averages. *)
Definition running : list Z := [300; 302; 303; 306; 307; 308; 309].
Definition averages : list Z := [301; 304; 305].
(** The type of the result: sums and products of integers have 64 bits, extremes have the type of the column. *)
Definition result_dtype (func d : Z) : Z :=
  if (func =? 300) || (func =? 302) then if floating d then d else if unsigned d then 8 else 7
  else if func =? 303 then 5
  else if existsb (Z.eqb func) averages then 12 else d.

(** The elements of an array, and an array inside of its memory. *)
Definition arg_vals {X} (zero : X) (a : arg X) : list X :=
  map (fun i => nth (Z.to_nat (a_start a + Z.of_nat i * a_step a)) (a_mem a) zero) (seq 0 (Z.to_nat (a_len a))).
Definition arg_ok {X} (n : Z) (a : arg X) : Prop :=
  a_len a = n /\ 0 <= a_start a <= Z.of_nat (length (a_mem a)) /\ (forall i, 0 <= i < a_len a -> 0 <= a_start a + i * a_step a < Z.of_nat (length (a_mem a))).
Definition gapless {X} (a : arg X) : Prop := a_step a = 1 \/ a_len a <= 1.
(** Nothing, or a mask of [n] elements without gaps. *)
Definition mask_given (n : Z) (p : param bool) : Prop := match p with PNone => True | PArray a => a_dtype a = 0 /\ arg_ok n a /\ gapless a | POther => False end.
Definition mask_vals (p : param bool) : option (list bool) := match p with PArray a => Some (arg_vals false a) | _ => None end.
Definition time_given {F} (n : Z) (p : param (num F)) : Prop := match p with PNone => True | PArray a => 5 <= a_dtype a <= 13 /\ arg_ok n a /\ gapless a | POther => False end.

Section Spec.
  Context {F : Type} (A : arith F).

  (** The elements of a column are those of its type. *)
  Definition elements_ok (d : Z) (vs : list (num F)) : Prop :=
    match int_type d with
    | Some (lo, hi, _) => exists zs, vs = map I zs /\ Forall (fun z => lo <= z <= hi) zs
    | None => floating d = true -> exists xs, vs = map R xs
    end.
  Definition column_given (n : Z) (c : column F) : Prop := shaped n c /\ elements_ok (c_dtype c) (c_vals c).

  (** The sum and the product: of integers modulo 2^64, of floating point numbers with the operations of the machine, one after the other. *)
  Definition product64 (d : Z) (zs : list Z) (z : Z) : Prop :=
    (2 ^ 64 | z - fold_right Z.mul 1 zs) /\ if unsigned d then 0 <= z < 2 ^ 64 else - 2 ^ 63 <= z < 2 ^ 63.
  Definition format (d : Z) : ctype := if d =? 11 then CF 4 else if d =? 13 then CF 16 else CF 8.
  Definition sum_of (d : Z) (vs : list (num F)) (r : num F) : Prop :=
    if floating d then exists xs, vs = map R xs /\ r = R (fold_left (fun s x => fadd A (format d) s (cast A (format d) x)) xs (fzero A (format d)))
    else exists zs z, vs = map I zs /\ r = I z /\ sum64 d zs z.
  Definition product_of (d : Z) (vs : list (num F)) (r : num F) : Prop :=
    if floating d then exists xs, vs = map R xs /\ r = R (fold_left (fun s x => fmul A (format d) s (cast A (format d) x)) xs (of_int A (format d) 1))
    else exists zs z, vs = map I zs /\ r = I z /\ product64 d zs z.
  (** The value of a row of no group, for sums and products. *)
  Definition none_of (d : Z) : num F := if floating d then R (fnanv A (format d)) else if unsigned d then I (2 ^ 64 - 1) else I (- 2 ^ 63).

  (** Valid values and their order. *)
  Definition valid_of (d : Z) (v : num F) : bool :=
    match v, int_type d with R x, None => negb (isnan A x) | I z, Some (_, _, missing) => negb (z =? missing) | _, _ => false end.
  Definition below (v w : num F) : bool := match v, w with I a, I b => a <? b | R x, R y => fltb A x y | _, _ => false end.
  Definition above (v w : num F) : bool := below w v.
  Definition of_type (d : Z) (v : num F) : Prop :=
    match v, int_type d with R _, None => True | I z, Some (lo, hi, missing) => lo <= z <= hi \/ z = missing | _, _ => False end.
  Definition best_of (func d : Z) (vs : list (num F)) (v : num F) : Prop :=
    of_type d v /\
    match func with
    | 307 => nan_extreme (valid_of d) below vs v | 306 => nan_extreme (valid_of d) above vs v
    | 309 => full_extreme (valid_of d) below vs v | 308 => full_extreme (valid_of d) above vs v
    | _ => False
    end.

  (** The rows of the result.  None: the row is not written. *)
  Definition rows_spec (func d : Z) (keys : list Z) (vs : list (num F)) (im rm : option (list bool)) (out : list (option (num F))) : Prop :=
    match func with
    | 300 => by_group 1 keys (Some (none_of d)) (run_row keys vs im rm (sum_of d)) out
    | 302 => by_group 1 keys (Some (none_of d)) (run_row keys vs im rm (product_of d)) out
    | 303 => by_group 1 keys (Some (I 0)) (fun i v => exists z, v = I z /\ nth_of keys im i z) out
    | _ => by_group (if plain im rm then 0 else 1) keys None (run_row keys vs im rm (best_of func d)) out
    end.
  (** The result for a column: None if its type is not supported. *)
  Definition column_answer (func : Z) (keys : list Z) (im rm : option (list bool)) (c : column F) (r : option (Z * list (option (num F)))) : Prop :=
    if (func =? 303) || ((0 <=? c_dtype c) && (c_dtype c <=? 13))
    then exists out, r = Some (result_dtype func (c_dtype c), out) /\ rows_spec func (c_dtype c) keys (c_vals c) im rm out
    else r = None.
End Spec.

(** ** Moving averages, over the real numbers *)
Notation real := Rdefinitions.R.
(** Arithmetic without rounding. *)
Definition real_arith (A : arith real) : Prop :=
  (forall U, fzero A U = 0%R) /\ (forall U z, of_int A U z = IZR z) /\ (forall U x, cast A U x = x) /\ (forall x y, fltb A x y = negativeR (x - y)) /\
  (forall U, fadd A U = Rplus /\ fsub A U = Rminus /\ fmul A U = Rmult).
Definition real_of (v : num real) : real := match v with I z => IZR z | R x => x end.
(** The differences of the times of two rows of one group can be had: signed integers do not overflow, unsigned ones do not go backwards. *)
Definition times_ok (d : Z) (keys : list Z) (ts : list (num real)) : Prop :=
  in_group keys ts (fun ti tj => match ti, tj with
    | I a, I b => if unsigned d then b <= a else - 2 ^ (if d =? 5 then 31 else 63) <= a - b < 2 ^ (if d =? 5 then 31 else 63)
    | R _, R _ => True
    | _, _ => False
    end).
(** How much of an average is kept from one row to the next: the times may go backwards, then nothing is. *)
Definition kept (rate : real) (t last : num real) : real := if negativeR (real_of t - real_of last) then 0%R else exp (- rate * (real_of t - real_of last)).
Definition average_rows (func : Z) (rate : real) (keys : list Z) (vs ts : list (num real)) (im rm : option (list bool)) (none : real) (out : list (option (num real))) : Prop :=
  match func with
  | 301 => by_group 1 keys (Some (R none)) (fun i v => exists x, v = R x /\ decay_row real_of real_of rate keys vs ts im rm i x) out
  | 304 => by_group 1 keys (Some (R none)) (fun i v => exists x, v = R x /\ average_row real_of (kept rate) keys vs ts i x) out
  | 305 => by_group 1 keys (Some (R none)) (fun i v => exists x, v = R x /\ average_row real_of (fun _ _ => rate) keys vs (repeat tt (length keys)) i x) out
  | _ => False
  end.
(** The result for a column: None if its type is not supported. *)
Definition average_answer (A : arith real) (func : Z) (rate : real) (keys : list Z) (ts : list (num real)) (im rm : option (list bool)) (c : column real)
  (r : option (Z * list (option (num real)))) : Prop :=
  if (0 <=? c_dtype c) && (c_dtype c <=? 13)
  then exists out, r = Some (12, out) /\ average_rows func rate keys (c_vals c) ts im rm (fnanv A (CF 8)) out
  else r = None.
(** What a moving average can be computed from: times of 32 or 64 bits that are no long double; for the averages no masks; signed times
    only if they are all negative. *)
Definition averages_ok (func : Z) (keys : list Z) (a : arg (num real)) (include reset : param bool) : Prop :=
  let ts := arg_vals (I 0) a in
  5 <= a_dtype a <= 12 /\ elements_ok (a_dtype a) ts /\ times_ok (a_dtype a) keys ts /\
  (func = 301 -> include = PNone \/ reset = PNone) /\
  (func <> 301 -> include = PNone /\ reset = PNone /\ Forall (fun k => 0 <= k) keys) /\
  (func = 304 -> In (a_dtype a) [5; 7; 9] -> Forall (fun t => real_of t < 0)%R ts).

(** ** What is refused *)
Definition mask_wrong (n : Z) (p : param bool) : Prop := exists a, p = PArray a /\ (a_dtype a <> 0 \/ a_len a <> n).
Definition time_wrong {F} (n : Z) (p : param (num F)) : Prop := exists a, p = PArray a /\ (~ 5 <= a_dtype a <= 13 \/ a_len a <> n).

(** ** For examples *)
Definition int_arg {F} (d : Z) (l : list Z) : arg (num F) := mkArg d (map I l) 0 1 (Z.of_nat (length l)).
Definition bools (l : list bool) : param bool := PArray (mkArg 0 l 0 1 (Z.of_nat (length l))).
Definition EmaW := EmaAll32 whole (fun x => x) (option_map Z.opp) (fun _ => Some 77).
Definition col {F} (d : Z) (l : list Z) : object F := OArray (mkCol d 1 (map I l) 4 4).
Definition reals : arith real :=
  mkArith (fun _ => 0%R) (fun _ => 0%R) (fun _ => false) (fun x y => negativeR (x - y)) (fun _ => IZR) (fun _ x => x) (fun _ => Rplus) (fun _ => Rminus) (fun _ => Rmult)
    (fun _ x n => x / IZR n)%R (fun _ => sqrt).
