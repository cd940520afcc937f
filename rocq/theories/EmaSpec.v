(** Running values along the rows of a group: what they are meant to be. *)
From Verif Require Import Base AccumSpec EmaModel.
From Coq Require Import Reals.
Local Open Scope nat_scope.

(** the rows before row [i], and up to row [i], with the key [g] *)
Definition has_key (keys : list Z) (g : Z) (j : nat) : bool := match nth_error keys j with Some k => (k =? g)%Z | None => false end.
Definition before (keys : list Z) (g : Z) (i : nat) : list nat := filter (has_key keys g) (seq 0 i).
(** a mask at a row; without a mask every row is included and none resets *)
Definition on (default : bool) (m : option (list bool)) (j : nat) : bool := match m with Some l => nth j l false | None => default end.
(** the end of a list of rows from the last one that resets *)
Inductive since (reset : nat -> bool) : list nat -> list nat -> Prop :=
| since_all l : Forall (fun j => reset j = false) l -> since reset l l
| since_last p j s : reset j = true -> Forall (fun j => reset j = false) s -> since reset (p ++ j :: s) (j :: s).
Definition picked {A} (src : list A) (rows : list nat) (vs : list A) : Prop := map (nth_error src) rows = map Some vs.

(** row [i]: [P] of the included values of its group since the last included row that resets *)
Definition run_row {T D} (keys : list Z) (src : list T) (im rm : option (list bool)) (P : list T -> D -> Prop) (i : nat) (d : D) : Prop :=
  forall k, nth_error keys i = Some k ->
  exists s vs, since (on false rm) (filter (on true im) (before keys k (S i))) s /\ picked src s vs /\ P vs d.
(** every row with a key of [low] or more has a value with [P], the others have [other] *)
Definition by_group {D} (low : Z) (keys : list Z) (other : option D) (P : nat -> D -> Prop) (out : list (option D)) : Prop :=
  length out = length keys /\
  forall i k, nth_error keys i = Some k ->
  if (k <? low)%Z then nth_error out i = Some other else exists d, nth_error out i = Some (Some d) /\ P i d.
Definition mask_ok {A} (n : nat) (m : option (list A)) : Prop := match m with Some l => length l = n | None => True end.

(** no mask at all: the loops of the extremes do not test the key then *)
Definition plain (im rm : option (list bool)) : bool := match im, rm with None, None => true | _, _ => false end.

Definition op_of {T U} (conv : T -> U) (zero : U) (add : U -> U -> U) (vs : list T) (d : U) : Prop := d = total zero conv add vs.
(** the number of included rows of the group up to this one, 0 where it is not included *)
Definition nth_of (keys : list Z) (im : option (list bool)) (i : nat) (d : Z) : Prop :=
  forall k, nth_error keys i = Some k ->
  d = if on true im i then Z.of_nat (length (filter (on true im) (before keys k (S i)))) else 0%Z.
(** an extreme of the valid values; invalid if there is none *)
Definition extreme_of {T} (compare : T -> T -> bool) (l : list T) (d : T) : Prop := In d l /\ forall y, In y l -> compare y d = false.
Definition nan_extreme {T} (valid : T -> bool) (compare : T -> T -> bool) (vs : list T) (d : T) : Prop :=
  match filter valid vs with [] => valid d = false | l => extreme_of compare l d end.
(** an extreme of the values; invalid if there is none or one of them is invalid *)
Definition full_extreme {T} (valid : T -> bool) (compare : T -> T -> bool) (vs : list T) (d : T) : Prop :=
  match vs with [] => valid d = false | l => if forallb valid l then extreme_of compare l d else valid d = false end.

(** each value decayed to the time of the row *)
Definition decayed (rate ti : R) (tvs : list (R * R)) : R := fold_right Rplus 0%R (map (fun tv => snd tv * exp (- rate * (ti - fst tv)))%R tvs).
Definition decay_row {T V} (ofT : T -> R) (time : V -> R) (rate : R) (keys : list Z) (src : list T) (times : list V) (im rm : option (list bool)) (i : nat) (d : R) : Prop :=
  forall k, nth_error keys i = Some k ->
  exists s vs ts ti, since (on false rm) (filter (on true im) (before keys k (S i))) s /\ picked src s vs /\ picked times s ts /\ nth_error times i = Some ti /\
    d = decayed rate (time ti) (combine (map time ts) (map ofT vs)).
(** the moving average: the first value, then the mean of the new value and the average weighted by [weight] of the two times *)
Fixpoint average {V} (weight : V -> V -> R) (e : R) (last : V) (tvs : list (V * R)) : R :=
  match tvs with
  | [] => e
  | (t, v) :: tvs' => let w := weight t last in average weight (v * (1 - w) + e * w)%R t tvs'
  end.
Definition average_row {T V} (ofT : T -> R) (weight : V -> V -> R) (keys : list Z) (src : list T) (times : list V) (i : nat) (d : R) : Prop :=
  forall k, nth_error keys i = Some k ->
  exists v t vs ts, picked src (before keys k (S i)) (v :: vs) /\ picked times (before keys k (S i)) (t :: ts) /\
    d = average weight (ofT v) t (combine ts (map ofT vs)).
Definition weight_of {V} (delta : V -> V -> option R) (negative : R -> bool) (decay : R -> R) (t last : V) : R :=
  match delta t last with Some d => if negative d then 0%R else decay d | None => 0%R end.
(** the times of two rows of one group, [j] before [i] *)
Definition in_group {V} (keys : list Z) (times : list V) (P : V -> V -> Prop) : Prop :=
  forall i j k ti tj, j < i -> nth_error keys j = Some k -> nth_error keys i = Some k -> nth_error times j = Some tj -> nth_error times i = Some ti -> P ti tj.
(** what EmaAll32 checks of its arguments besides their types, Ema.cpp:2410-2427 *)
Definition accepted {V} (keys : list Z) (im rm : option (list bool)) (times : option (list V)) : Prop :=
  mask_ok (length keys) rm /\ mask_ok (length keys) im /\ mask_ok (length keys) times.
(** int64: None where the difference overflows; uint32: modulo 2^32 *)
Definition delta64 (a b : Z) : option R := if ((- 2 ^ 63 <=? a - b) && (a - b <? 2 ^ 63))%Z then Some (IZR (a - b)) else None.
Definition deltaU32 (a b : Z) : option R := Some (IZR ((a - b) mod 2 ^ 32)).
Definition negativeR (x : R) : bool := if Rlt_dec x 0 then true else false.
