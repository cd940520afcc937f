(** What TimeWindow and Rolling should return. *)
From Coq Require Import Reals.
From Verif Require Import Base Mem AccumSpec AllModel AllSpec EaModel EaSpec.
From Verif Require GrpxSpec CalcSpec HeapSpec WnModel.
Local Open Scope Z_scope.

(** ** TimeWindow *)
(** The rows up to [i] that are no more than [delta] before it, and [i] itself. *)
Definition members (times : list Z) (delta : Z) (i : nat) : list nat :=
  filter (fun j => (j =? i)%nat || (nth i times 0 - nth j times 0 <=? delta)) (seq 0 (S i)).

(** The type of the result: integers get 64 bits. *)
Definition time_dtype (d : Z) : Z := if floating d then d else if unsigned d then 8 else 7.

Section Spec.
  Context {F : Type} (A : arith F).

  (** The sum (0) or product (1) of the values: of integers modulo 2^64, of floating point numbers with the operations of the machine, the last
      value first. *)
  Definition combined (func d : Z) (vs : list (num F)) (r : num F) : Prop :=
    if floating d then
      exists xs, vs = map R xs /\
        r = R (match rev xs with
               | [] => fzero A (format d)
               | x :: l => fold_left (fun s y => (if func =? 0 then fadd A else fmul A) (format d) s (cast A (format d) y)) l (cast A (format d) x)
               end)
    else exists zs z, vs = map I zs /\ r = I z /\ if func =? 0 then sum64 d zs z else product64 d zs z.
  Definition time_row (func d : Z) (vs : list (num F)) (times : list Z) (delta : Z) (i : nat) (r : num F) : Prop :=
    combined func d (map (fun j => nth j vs (I 0)) (members times delta i)) r.
  (** One value for each row. *)
  Definition every_row {X} (P : nat -> X -> Prop) (n : Z) (out : list X) : Prop :=
    Z.of_nat (length out) = n /\ forall i r, nth_error out i = Some r -> P i r.
  (** An array of a type of number. *)
  Definition numbers (a : arg (num F)) : Prop :=
    0 <= a_dtype a <= 13 /\ 0 <= a_len a /\ arg_ok (a_len a) a /\ elements_ok (a_dtype a) (arg_vals (I 0) a).
  Definition times_given (n : Z) (t : arg Z) : Prop := In (a_dtype t) [7; 9] /\ arg_ok n t.

  (** ** Rolling *)
  (** The last [win] of the rows up to [k]. *)
  Definition last_rows (win : Z) (k : nat) (vs : list (num F)) : list (num F) := skipn (S k - Z.to_nat win) (firstn (S k) vs).
  Definition float_of (d : Z) (v : num F) : F := match v with I z => of_int A (format d) z | R x => cast A (format d) x end.
  Definition mean_of (d : Z) (vs : list (num F)) (r : num F) : Prop :=
    r = R (fdivn A (format d) (fold_left (fun s v => fadd A (format d) s (float_of d v)) vs (fzero A (format d))) (Z.of_nat (length vs))).
  (** Sum, sum of the valid values, mean, mean of the valid values. *)
  Definition rolling : list Z := [0; 1; 102; 103].
  Definition rolling_row (func d win : Z) (vs : list (num F)) (k : nat) (r : num F) : Prop :=
    let w := last_rows win k vs in
    let present := filter (valid_of A d) w in
    let sum_type := if floating d then d else 7 in
    match func with
    | 0 => sum_of A sum_type w r
    | 1 => sum_of A sum_type present r
    | 102 => mean_of d w r
    | 103 => mean_of d present r
    | _ => False
    end.
  (** Sums have 64 bits and a sign, the others are floating point numbers. *)
  Definition rolling_dtype (func d : Z) : Z :=
    if (func =? 0) || (func =? 1) then if floating d then d else 7 else if (d =? 11) || (d =? 13) then d else 12.
  (** What a value adds to a sum it takes away again: for numbers that are no NaN. *)
  Definition exact_on (U : ctype) : Prop :=
    let v x := isnan A x = false in
    v (fzero A U) /\ (forall a b, v a -> v b -> v (fadd A U a b) /\ fadd A U a b = fadd A U b a /\ fsub A U (fadd A U a b) b = a) /\
    (forall a b c, v a -> v b -> v c -> fadd A U (fadd A U a b) c = fadd A U a (fadd A U b c)).
  (** The functions that do not look for invalid values get none: NaN for sums and means, the invalid integer for the mean of the valid. *)
  Definition plain_values (func d : Z) (vs : list (num F)) : Prop :=
    (func = 0 \/ func = 102 -> floating d = true -> Forall (fun v => valid_of A d v = true) vs) /\
    (func = 103 -> floating d = false -> Forall (fun v => valid_of A d v = true) vs).

  (** The quantile [k] / 10^9 of the valid values of the window. *)
  Definition midway (d : Z) (v w : num F) : num F :=
    match v, w with
    | I a, I b => R (fdivn A (CF 8) (of_int A (CF 8) (a + b)) 2)
    | R x, R y => R (cast A (format d) (fdivn A (format d) (fadd A (format d) x y) 2))
    | _, _ => I 0
    end.
  Definition quantile_rows (k d win : Z) (vs : list (num F)) (i : nat) (r : num F) : Prop :=
    HeapSpec.quantile_of (below A) (valid_of A d) (R (fnanv A (format d))) (fun v => R (float_of d v)) (midway d) (HeapSpec.exact_index k) (HeapSpec.exact_whole k)
      (last_rows win i vs) r.
  (** The sum of two values has the type of the values, if that has at least 32 bits. *)
  Definition no_overflow (d : Z) (vs : list (num F)) : Prop :=
    5 <= d <= 10 -> forall x y lo hi missing, In (I x) vs -> In (I y) vs -> int_type d = Some (lo, hi, missing) -> lo <= x + y <= hi.
End Spec.

(** ** For examples *)
Definition TimeW := fun a t func delta => WnModel.TimeWindow whole in_order true a (mkArg 7 t 0 1 (Z.of_nat (length t))) func delta.
Definition RollW := WnModel.Rolling whole (fun _ _ _ _ _ => Error) (I 77).
Definition float_arg (d : Z) (l : list (option Z)) : arg (num (option Z)) := mkArg d (map R l) 0 1 (Z.of_nat (length l)).
