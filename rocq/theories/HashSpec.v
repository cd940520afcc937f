(** What the hash functions are meant to compute, stated without hash tables. *)
From Verif Require Import Base Mem HashModel.
Local Open Scope Z_scope.

(** ** Outcomes *)

(** [okt T Q e]: no undefined behaviour, an exception only if [T], and a result that satisfies [Q]. *)
Definition okt {A} (T : Prop) (Q : A -> Prop) (e : out A) : Prop :=
  match e with Ret a => Q a | Throw => T | UB => False end.

(** There are fewer than [n] different values in [ks]. *)
Definition fewer_than {K} (n : Z) (ks : list K) : Prop := exists U, incl ks U /\ Z.of_nat (length U) < n.

(** A hash function for a table of [size] positions. *)
Definition in_table {K} (size : Z) (H : K -> Z) : Prop := forall k, 0 <= H k < size.

(** ** Membership *)

Section Member.
  Context {A B : Type} (eqv : A -> B -> Prop) (bad : Z) (b : list B).
  (** [r] for the row [x]: whether it equals some row of [b], and the first such row, else [bad] *)
  Definition member_row (x : A) (r : bool * Z) : Prop :=
    (exists j y, nth_error b j = Some y /\ eqv x y /\ (forall j' y', (j' < j)%nat -> nth_error b j' = Some y' -> ~ eqv x y') /\
                 r = (true, Z.of_nat j)) \/
    ((forall y, In y b -> ~ eqv x y) /\ r = (false, bad)).
  Definition member_spec (a : list A) (res : list (bool * Z)) : Prop := Forall2 member_row a res.

  (** the same as a category number: first row + 1, or 0 with [missed] *)
  Definition member_cat_row (x : A) (r : Z * bool) : Prop :=
    (exists j y, nth_error b j = Some y /\ eqv x y /\ (forall j' y', (j' < j)%nat -> nth_error b j' = Some y' -> ~ eqv x y') /\
                 r = (Z.of_nat j + 1, false)) \/
    ((forall y, In y b -> ~ eqv x y) /\ r = (0, true)).
  Definition member_cat_spec (a : list A) (res : list Z * bool) : Prop :=
    exists rs, Forall2 member_cat_row a rs /\ fst res = map fst rs /\ (snd res = true <-> In true (map snd rs)).
End Member.

(** Bit patterns of [w] bits. *)
Definition bits (w : Z) (xs : list Z) : Prop := forall x, In x xs -> 0 <= x < 2 ^ w.
(** The number of bits of a key. *)
Definition width (kt : key_type) : Z := match kt with Item1 => 8 | Item2 => 16 | Float32 | Item4 => 32 | Float64 | Item8 => 64 end.
(** No zero of each sign among the values (equal floats have equal bits). *)
Definition one_zero (w e : Z) (xs : list Z) : Prop := forall x y, In x xs -> In y xs -> feq_bits w e x y = true -> x = y.
(** Strings of width [w] without characters after the first 0. *)
Definition padded (w : nat) (ss : list (list Z)) : Prop :=
  forall s, In s ss -> length s = w /\ forall i, nth_error s i = Some 0 -> forall j c, (i <= j)%nat -> nth_error s j = Some c -> c = 0.

(** Equal but for zeros at the end: how numpy compares strings of different widths. *)
Definition same_text (s1 s2 : list Z) : Prop := exists k, s1 ++ repeat 0 k = s2 \/ s2 ++ repeat 0 k = s1.

(** ** Grouping *)

Section Group.
  Context {K : Type} (rows : list (K * bool)).
  (** row [i] is kept and has key [k] *)
  Definition kept (i : nat) (k : K) : Prop := nth_error rows i = Some (k, true).
  (** [i] is the first kept row with its key *)
  Definition first_row (i : nat) (k : K) : Prop := kept i k /\ forall j, (j < i)%nat -> ~ kept j k.

  (** [idx]: group number of each row, [first]: first row of each group. Filtered rows have number 0; a kept row has
      the number of the group whose first row is the first kept row with its key; the groups are numbered in the order
      of their first rows. *)
  Record grouped (idx first : list Z) : Prop := {
    gr_length : length idx = length rows;
    gr_filtered : forall i k, nth_error rows i = Some (k, false) -> nth_error idx i = Some 0;
    gr_kept : forall i k, kept i k -> exists g r, nth_error first g = Some (Z.of_nat r) /\ first_row r k /\
                (r <= i)%nat /\ nth_error idx i = Some (Z.of_nat g + 1);
    gr_first : forall g r, nth_error first g = Some r -> exists i k, r = Z.of_nat i /\ first_row i k /\ nth_error idx i = Some (Z.of_nat g + 1);
    gr_order : forall g g' r r', (g < g')%nat -> nth_error first g = Some r -> nth_error first g' = Some r' -> r < r'
  }.
End Group.

(** *** Columns that go with the group numbers [idx] *)

Section Columns.
  Context (idx : list Z).
  (** the rows with group number [g] *)
  Definition in_group (g : Z) (i : nat) : Prop := nth_error idx i = Some g.
  (** the last row before row [i], the first row after it, the first and the last row of its group *)
  Definition prev_row (i : nat) (r : Z) : Prop := forall g, in_group g i ->
    (exists j, r = Z.of_nat j /\ (j < i)%nat /\ in_group g j /\ forall j', (j < j' < i)%nat -> ~ in_group g j') \/
    (r = GB_INVALID /\ forall j, (j < i)%nat -> ~ in_group g j).
  Definition next_row (i : nat) (r : Z) : Prop := forall g, in_group g i ->
    (exists j, r = Z.of_nat j /\ (i < j)%nat /\ in_group g j /\ forall j', (i < j' < j)%nat -> ~ in_group g j') \/
    (r = GB_INVALID /\ forall j, (i < j)%nat -> ~ in_group g j).
  Definition group_first (i : nat) (r : Z) : Prop := forall g, in_group g i ->
    exists j, r = Z.of_nat j /\ in_group g j /\ forall j', in_group g j' -> (j <= j')%nat.
  Definition group_last (i : nat) (r : Z) : Prop := forall g, in_group g i ->
    exists j, r = Z.of_nat j /\ in_group g j /\ forall j', in_group g j' -> (j' <= j)%nat.
  (** the number of rows of its group up to row [i], and altogether *)
  Definition running (i : nat) (r : Z) : Prop := forall g, in_group g i -> r = Z.of_nat (countb (Z.eqb g) (firstn (S i) idx)).
  Definition group_size (i : nat) (r : Z) : Prop := forall g, in_group g i -> r = Z.of_nat (countb (Z.eqb g) idx).
  (** a column with one item per row *)
  Definition column (P : nat -> Z -> Prop) (c : list Z) : Prop := length c = length idx /\ forall i r, nth_error c i = Some r -> P i r.
  (** the sizes of groups 1, 2, ... *)
  Definition sizes (first cnt : list Z) : Prop := length cnt = length first /\
    forall g c, nth_error cnt g = Some c -> c = Z.of_nat (countb (Z.eqb (Z.of_nat g + 1)) idx).
End Columns.

(** Every row is kept. *)
Definition all_kept {K} (keys : list K) : list (K * bool) := map (fun k => (k, true)) keys.
(** [os]: bin (from 0) and running count of each key of [keys] *)
Definition rolls {K} (keys : list K) (os : list (Z * Z)) (first : list Z) : Prop :=
  let idx := map (fun o => fst o + 1) os in
  grouped (all_kept keys) idx first /\ column idx (running idx) (map snd os).

(** Rows [a] to [b - 1]. *)
Definition part {A} (a b : Z) (l : list A) : list A := firstn (Z.to_nat (b - a)) (skipn (Z.to_nat a) l).
(** The ends [cut] of the partitions go up from [a] to [n]. *)
Fixpoint cuts (a : Z) (cut : list Z) (n : Z) : Prop :=
  match cut with [] => a = n | c :: cut' => a <= c /\ cuts c cut' n end.
(** Each partition is grouped on its own; [counts]: the number of groups up to the end of each partition. *)
Definition grouped_parts {K} (cut : list Z) (rows : list (K * bool)) (idx first counts : list Z) : Prop :=
  exists parts, Forall2 (fun p r => grouped (part (fst p) (snd p) rows) (fst r) (snd r)) (combine (0 :: cut) cut) parts /\
    idx = concat (map fst parts) /\ first = concat (map snd parts) /\ length counts = length cut /\
    forall q c, nth_error counts q = Some c -> c = Z.of_nat (length (concat (map snd (firstn (S q) parts)))).

(** ** As-of merge *)

Section AsOf.
  Context {K V : Type} (lt : V -> V -> Prop) (valid : V -> Prop) (exact : bool).
  Context (key1 key2 : list K) (val1 val2 : list V).
  (** time [v2] is not after (backward) or not before (forward) [v1], strictly when exact matches are not allowed *)
  Definition eligible (forward : bool) (i j : nat) : Prop :=
    exists k v1 v2, nth_error key1 i = Some k /\ nth_error key2 j = Some k /\ nth_error val1 i = Some v1 /\ nth_error val2 j = Some v2 /\
      valid v1 /\ valid v2 /\
      (if forward then (if exact then ~ lt v2 v1 else lt v1 v2) else (if exact then ~ lt v1 v2 else lt v2 v1)).
  Definition asof_row (forward : bool) (bad : Z) (i : nat) (r : Z) : Prop :=
    (exists j, eligible forward i j /\ r = Z.of_nat j /\
       forall j', eligible forward i j' -> if forward then (j <= j')%nat else (j' <= j)%nat) \/
    ((forall j, ~ eligible forward i j) /\ r = bad).
  Definition asof_spec (forward : bool) (bad : Z) (res : list Z) : Prop :=
    length res = length key1 /\ forall i r, nth_error res i = Some r -> asof_row forward bad i r.
End AsOf.

(** Sorted in time, leaving the invalid values out. *)
Definition time_sorted {V} (lt : V -> V -> Prop) (valid : V -> Prop) (vs : list V) : Prop :=
  forall i j x y, (i < j)%nat -> nth_error vs i = Some x -> nth_error vs j = Some y -> valid x -> valid y -> ~ lt y x.
(** [lt] is a strict weak order on the valid values, [eq] its equivalence. *)
Record time_order {V} (lt eq : V -> V -> bool) (valid : V -> bool) : Prop := {
  to_irrefl : forall x, valid x = true -> lt x x = false;
  to_trans : forall x y z, valid x = true -> valid y = true -> valid z = true -> lt x y = true -> lt y z = true -> lt x z = true;
  to_weak : forall x y z, valid x = true -> valid y = true -> valid z = true -> lt x z = true -> lt x y = true \/ lt y z = true;
  to_eq : forall x y, valid x = true -> valid y = true -> (eq x y = true <-> lt x y = false /\ lt y x = false)
}.

(** ** Fixing up categorical membership *)

(** The rows of the first array have category [v - base1] (none below [base1]), [uniq] gives the category of the second
    array with the same name or [inv], and row [j] of the second array has category [bins2[j] - base2]. *)
Section Fixup.
  Context (inv base1 base2 : Z) (bins2 uniq : list Z).
  Definition same_cat (v : Z) (j : nat) : Prop :=
    base1 <= v /\ exists u, nth_error uniq (Z.to_nat (v - base1)) = Some u /\ u <> inv /\ nth_error bins2 j = Some (u + base2).
  Definition fixup_row (v : Z) (r : bool * Z) : Prop :=
    (exists j, same_cat v j /\ (forall j', (j' < j)%nat -> ~ same_cat v j') /\ r = (true, Z.of_nat j)) \/
    ((forall j, ~ same_cat v j) /\ r = (false, inv)).
End Fixup.
