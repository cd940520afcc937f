(** What the functions on packed groups should return. *)
From Coq Require Export Sorted.
From Verif Require Import Base Mem Num GroupSpec AccumSpec.
Local Open Scope Z_scope.

(** iGroup, iFirst and nCount are the packed layout of the keys for the bins 0 .. n-1. *)
Definition layout {T} (n : Z) (keys : list Z) (src : list T) (ncount igroup ifirst : list Z) : Prop :=
  length src = length keys /\ histogram n keys ncount /\ packed_rows n keys ncount igroup ifirst.

Section PerBin.
  Context {T U : Type}.
  (** [res] holds for every bin of the range the result [P] of that group's values; the other elements are unchanged. *)
  Definition per_bin (P : list T -> U -> Prop) (low high : Z) (keys : list Z) (src : list T) (out0 res : list U) : Prop :=
    length res = length out0 /\ reduced P low high (combine keys src) res /\ outside_kept low high out0 res.

  Context (uinv : U) (conv : T -> U).
  Definition or_inv (o : option T) : U := match o with Some x => conv x | None => uinv end.

  (** element [n] of the group, counted from the end for a negative [n] *)
  Definition py_nth (n : Z) (l : list T) : option T :=
    let i := if 0 <=? n then n else Z.of_nat (length l) + n in if 0 <=? i then nth_error l (Z.to_nat i) else None.
  Definition nth_spec (n : Z) (vals : list T) (r : U) : Prop := r = or_inv (py_nth n vals).
  Definition first_spec (vals : list T) (r : U) : Prop := r = or_inv (hd_error vals).
  Definition last_spec (vals : list T) (r : U) : Prop := r = or_inv (hd_error (rev vals)).

  (** [s] is [l] in ascending order *)
  Definition sorted_of (lt : T -> T -> bool) (l s : list T) : Prop :=
    Permutation l s /\ StronglySorted (fun a b => lt b a = false) s.

  (** [m] is the k-th smallest element of [l] *)
  Definition order_stat (lt : T -> T -> bool) (l : list T) (k : nat) (m : T) : Prop :=
    exists s, sorted_of lt l s /\ nth_error s k = Some m.

  (** the middle value of the valid values, or the midpoint of the two middle values *)
  Definition median_spec (lt : T -> T -> bool) (ok : T -> bool) (mid : T -> T -> T) (vals : list T) (r : U) : Prop :=
    let v := filter ok vals in
    match v with
    | [] => r = uinv
    | _ => exists s, sorted_of lt v s /\
        if Nat.odd (length v) then exists m, nth_error s (length v / 2) = Some m /\ r = conv m
        else exists a b, nth_error s (length v / 2) = Some a /\ nth_error s (length v / 2 - 1) = Some b /\ r = conv (mid a b)
    end.

  (** a most frequent valid value, the smallest of them *)
  Definition mode_spec (lt : T -> T -> bool) (eq : T -> T -> bool) (ok : T -> bool) (vals : list T) (r : U) : Prop :=
    let v := filter ok vals in
    match v with
    | [] => r = uinv
    | _ => exists m, r = conv m /\ In m v /\
        forall y, In y v -> (countb (eq y) v <= countb (eq m) v)%nat /\ (countb (eq y) v = countb (eq m) v -> lt y m = false)
    end.

  (** the value at position up n = down n of the n sorted valid values, or the midpoint of the values at up n and up n - 1 *)
  Definition quantile_spec (lt : T -> T -> bool) (ok : T -> bool) (mid : T -> T -> U) (nanq : bool) (down up : nat -> Z)
      (vals : list T) (r : U) : Prop :=
    let v := filter ok vals in
    if negb nanq && negb (forallb ok vals) then r = uinv
    else match v with
    | [] => r = uinv
    | _ => exists s, sorted_of lt v s /\
        if up (length v) =? down (length v) then exists m, nth_error s (Z.to_nat (up (length v))) = Some m /\ r = conv m
        else exists a b, nth_error s (Z.to_nat (up (length v))) = Some a /\ nth_error s (Z.to_nat (up (length v)) - 1) = Some b /\ r = mid a b
    end.

  (** the mean of the valid values between the two order statistics; invalid if there are not more than 2 t valid values *)
  Definition trimmean_spec {D} (lt le : T -> T -> bool) (ok : T -> bool) (ntrim : nat -> nat) (zero : D) (add : D -> T -> D)
      (cast : D -> Z -> U) (vals : list T) (r : U) : Prop :=
    let v := filter ok vals in
    let t := ntrim (length v) in
    if (length v <=? 2 * t)%nat then r = uinv
    else exists lb ub, order_stat lt v (t - 1) lb /\ order_stat lt v (length v - t) ub /\
      let kept := filter (fun y => le lb y && le y ub) v in
      r = cast (fold_left add kept zero) (Z.of_nat (length kept)).
End PerBin.

(** COMPARE_LT (Sort.cpp:79-97): invalid values (NaN) are greater than all others. *)
Definition compare_lt {T} (lt : T -> T -> bool) (ok : T -> bool) (a b : T) : bool := lt a b || (negb (ok b) && ok a).

(** [qsort] sorts lists of at most [n] values. *)
Definition sorts {T} (n : nat) (lt : T -> T -> bool) (qsort : list T -> list T) : Prop := forall l, (length l <= n)%nat -> sorted_of lt l (qsort l).

(** [nthel] does what std::nth_element guarantees, on lists of valid values. *)
Definition nth_elements {T} (lt : T -> T -> bool) (ok : T -> bool) (nthel : list T -> nat -> list T) : Prop :=
  forall l k, (k < length l)%nat -> forallb ok l = true ->
    Permutation l (nthel l k) /\
    exists a m b, nthel l k = a ++ m :: b /\ length a = k /\ (forall x, In x a -> lt m x = false) /\ (forall x, In x b -> lt x m = false).

(** == of the type on its valid values *)
Definition eq_ok {T} (ok : T -> bool) (lt eq : T -> T -> bool) : Prop :=
  forall a b, ok a = true -> ok b = true -> eq a b = negb (lt a b) && negb (lt b a).
Definition le_ok {T} (ok : T -> bool) (lt le : T -> T -> bool) : Prop :=
  forall a b, ok a = true -> ok b = true -> le a b = negb (lt b a).

(** insertion sort, for examples *)
Fixpoint insert {T} (lt : T -> T -> bool) (x : T) (l : list T) : list T :=
  match l with [] => [x] | y :: l' => if lt y x then y :: insert lt x l' else x :: l end.
Definition isort {T} (lt : T -> T -> bool) (l : list T) : list T := fold_right (insert lt) [] l.

(** The indices of quantile p / 10^9 of n values. *)
Definition exact_down (p : Z) (n : nat) : Z := (Z.of_nat n - 1) * p / 10 ^ 9.
Definition exact_up (p : Z) (n : nat) : Z := - (- ((Z.of_nat n - 1) * p) / 10 ^ 9).

Section PerRow.
  Context {T U : Type} (uinv : U).
  (** Row number k of group g holds [P (values of the group) k]; the rows of group 0 are invalid; rows of other groups unchanged. *)
  Definition per_row (P : list T -> nat -> U -> Prop) (low high : Z) (keys : list Z) (src : list T) (out0 res : list U) : Prop :=
    length res = length out0 /\
    forall g k r, nth_error (rows_with keys g) k = Some r ->
      (low <= g < high -> g <> 0 -> exists u, nth_error res (Z.to_nat r) = Some u /\ P (group_vals (combine keys src) g) k u) /\
      (low = 0 -> g = 0 -> nth_error res (Z.to_nat r) = Some uinv) /\
      (~ low <= g < high -> ~ (low = 0 /\ g = 0) -> nth_error res (Z.to_nat r) = nth_error out0 (Z.to_nat r)).

  Context (conv : T -> U) (zero : U) (add sub : U -> U -> U) (div : U -> Z -> U) (ok : T -> bool).
  (** the last [win] values up to and including position k *)
  Definition window (win : Z) (k : nat) (vals : list T) : list T := skipn (k + 1 - Z.to_nat win) (firstn (k + 1) vals).
  Definition rsum_spec (win : Z) (vals : list T) (k : nat) (u : U) : Prop := u = total zero conv add (window win k vals).
  Definition rnansum_spec (win : Z) (vals : list T) (k : nat) (u : U) : Prop := u = total zero conv add (filter ok (window win k vals)).
  Definition rmean_spec (win : Z) (vals : list T) (k : nat) (u : U) : Prop :=
    u = div (total zero conv add (window win k vals)) (Z.of_nat (length (window win k vals))).
  Definition rnanmean_spec (win : Z) (vals : list T) (k : nat) (u : U) : Prop :=
    let v := filter ok (window win k vals) in
    u = match v with [] => uinv | _ => div (total zero conv add v) (Z.of_nat (length v)) end.
  (** the number of earlier (window >= 0) or later rows of the group *)
  Definition rcount_spec (cnt : Z -> U) (win : Z) (vals : list T) (k : nat) (u : U) : Prop :=
    u = cnt (if win <? 0 then Z.of_nat (length vals) - 1 - Z.of_nat k else Z.of_nat k).
  (** the value [win] rows before *)
  Definition lag (win : Z) (k : nat) (vals : list T) : option T :=
    let i := Z.of_nat k - win in if 0 <=? i then nth_error vals (Z.to_nat i) else None.
  Definition rshift_spec (win : Z) (vals : list T) (k : nat) (u : U) : Prop :=
    u = match lag win k vals with Some y => conv y | None => uinv end.
  Definition rdiff_spec (win : Z) (vals : list T) (k : nat) (u : U) : Prop :=
    u = match nth_error vals k, lag win k vals with Some x, Some y => sub (conv x) (conv y) | _, _ => uinv end.
End PerRow.

(** Subtraction undoes an addition. *)
Definition exact_sub {U} (add sub : U -> U -> U) : Prop := forall a b, sub (add a b) b = a.

(** ** Instances *)
Definition fsub (a b : fl) : fl :=
  fadd a (match b with NaN => NaN | NInf => PInf | PInf => NInf | Fin y => Fin (- y) end).
(** an example layout: six rows in four groups *)
Definition ex_keys : list Z := [1; 0; 1; 2; 1; 2].
Definition ex_ncount : list Z := [1; 3; 2; 0].
Definition ex_igroup : list Z := [1; 0; 2; 4; 3; 5].
Definition ex_ifirst : list Z := [0; 1; 4; 6].
(** one group 1 with all rows *)
Definition one_keys (n : nat) : list Z := repeat 1 n.
Definition one_rows (n : nat) : list Z := map Z.of_nat (seq 0 n).
Definition ok32 (x : Z) : bool := negb (x =? - 2 ^ 31).
