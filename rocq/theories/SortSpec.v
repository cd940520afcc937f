(** Definitions for the sorting theorems. *)
From Verif Require Import Base Mem Num SortModel.
Local Open Scope Z_scope.

Section Spec.
  Context {E : Type} (lt : E -> E -> bool).

  (** a strict weak order *)
  Definition strict_weak : Prop :=
    (forall x y, lt x y = true -> lt y x = false) /\
    (forall x y z, lt x z = true -> lt x y = true \/ lt y z = true).
  Definition eqv (x y : E) : bool := negb (lt x y) && negb (lt y x).

  (** no element comes after a greater one *)
  Definition sorted (l : list E) : Prop :=
    forall i j x y, (i < j)%nat -> nth_error l i = Some x -> nth_error l j = Some y -> lt y x = false.
  (** [res] is [orig] sorted, equal elements in their original order *)
  Definition stable_sort (orig res : list E) : Prop :=
    Permutation orig res /\ sorted res /\ forall x, filter (eqv x) res = filter (eqv x) orig.

  (** the comparison of the program is [lt] for the elements of [a] (no error) *)
  Definition compares (cmp : E -> E -> option bool) (a : list E) : Prop :=
    forall x y, In x a -> In y a -> cmp x y = Some (lt x y).
End Spec.

(** An index that sorts rows 0 .. n-1: a permutation of them, each row before the greater rows and before the equal rows
    with greater numbers. *)
Definition argsort (lt : Z -> Z -> bool) (n : Z) (res : list Z) : Prop :=
  Permutation res (arange n) /\
  forall i j x y, (i < j)%nat -> nth_error res i = Some x -> nth_error res j = Some y -> lt x y = true \/ (lt y x = false /\ x < y).

(** rows compared by the values of a column *)
Definition by_value {T} (d : T) (lt : T -> T -> bool) (v : list T) (i j : Z) : bool :=
  lt (nth (Z.to_nat i) v d) (nth (Z.to_nat j) v d).

(** lexicographic order of several columns, the last one first *)
Fixpoint lex_lt (cols : list (Z -> Z -> bool)) (i j : Z) : bool :=
  match cols with
  | [] => false
  | c :: cs => lex_lt cs i j || (negb (lex_lt cs j i) && c i j)
  end.
(** the model's columns compare by these orders for the rows in [rows] *)
Definition columns_ok (rows : list Z) (cols : list column) (lts : list (Z -> Z -> bool)) : Prop :=
  Forall2 (fun c lt => strict_weak lt /\ compares lt (c_lt c) rows) cols lts.

(** cutoffs: the ends of consecutive partitions of rows [start] .. [n-1] *)
Fixpoint cutoffs_ok (start n : Z) (cutoffs : list Z) : Prop :=
  match cutoffs with
  | [] => start = n
  | c :: r => start <= c /\ cutoffs_ok c n r
  end.
(** [n] rows of [a] from row [s] *)
Definition rows {E} (a : list E) (s n : Z) : list E := firstn (Z.to_nat n) (skipn (Z.to_nat s) a).
(** rows of a partition that starts at [s], compared as rows of the whole array *)
Definition shifted (s : Z) (lt : Z -> Z -> bool) : Z -> Z -> bool := fun i j => lt (s + i) (s + j).

(** non-decreasing, then only NaNs *)
Definition nondecreasing {T} (ge : T -> T -> bool) (nan : T -> bool) (a : list T) : Prop :=
  exists l r, a = l ++ r /\ Forall (fun x => nan x = true) r /\
    forall i j x y, (i < j)%nat -> nth_error l i = Some x -> nth_error l j = Some y -> ge y x = true.

(** [index] consists of consecutive blocks of rows, one block for each value; the rows of block q have key q + base, its
    first row is first[q] and its length is cnt[q + off]. *)
Definition grouping {K} (val : Z -> K) (base off : Z) (index key first cnt : list Z) : Prop :=
  exists blocks : list (list Z), index = concat blocks /\ length first = length blocks /\
    (forall q b, nth_error blocks q = Some b -> exists i r, b = i :: r /\ nth_error first q = Some i /\
      zrd cnt (Z.of_nat q + off) = Some (Z.of_nat (length b)) /\
      forall j, In j b -> val j = val i /\ zrd key j = Some (Z.of_nat q + base)) /\
    (forall q q' b b' i i', q <> q' -> nth_error blocks q = Some b -> nth_error blocks q' = Some b' -> In i b -> In i' b' -> val i <> val i').
(** the partition of a row: how many cutoffs are at most its number *)
Definition partition_of (cutoffs : list Z) (i : Z) : nat := countb (fun c => c <=? i) cutoffs.

(** The parallel merge sort: the calls in the order in which they end, as level and number of the block: eight sorts at
    level 0, then four, two and one merges. *)
Definition block_of (l : nat) (i : Z) : nat * Z := (l, match l with 0%nat => i | 1%nat => i / 2 | 2%nat => i / 4 | _ => 0 end).
Fixpoint par_calls {E} (cmp : E -> E -> option bool) (check : bool) (ends : list Z) (n : Z) (s : pstate E) (ts : list nat) : list (nat * Z) :=
  match ts with
  | [] => []
  | t :: ts' =>
      match nth_error (ps_pc s) t with Some (Call l i true) => [block_of l i] | _ => [] end ++
      match par_step cmp check ends n s t with Some s' => par_calls cmp check ends n s' ts' | None => [] end
  end.
Definition all_calls : list (nat * Z) := map (pair 0%nat) (arange 8) ++ map (pair 1%nat) (arange 4) ++ map (pair 2%nat) (arange 2) ++ [(3%nat, 0)].

(** an item of [k] bytes *)
Definition item (k : nat) (s : list Z) : Prop := length s = k /\ Forall (fun b => 0 <= b < 256) s.
(** NaNs come after everything else *)
Definition nan_last (v : list fl) (res : list Z) : Prop :=
  forall i j x y, (i < j)%nat -> nth_error res i = Some x -> nth_error res j = Some y ->
    is_nan (nth (Z.to_nat x) v NaN) = true -> is_nan (nth (Z.to_nat y) v NaN) = true.
