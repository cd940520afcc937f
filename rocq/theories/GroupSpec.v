(** Specification notions for the packed layout of groups. *)
From Verif Require Import Base.
Local Open Scope Z_scope.

(** The row numbers whose key is [g], ascending. *)
Definition rows_with (keys : list Z) (g : Z) : list Z :=
  map Z.of_nat (filter (fun i => match nth_error keys i with Some k => k =? g | None => false end) (seq 0 (length keys))).

(** The number of rows whose key is [g]. *)
Definition count_of (keys : list Z) (g : Z) : Z := Z.of_nat (countb (Z.eqb g) keys).

Definition all_in_range (n : Z) (keys : list Z) : Prop := forall k, In k keys -> 0 <= k < n.

(** [l] from position [start], [len] elements *)
Definition slice {A} (l : list A) (start len : Z) : list A := firstn (Z.to_nat len) (skipn (Z.to_nat start) l).

(** [ncount] is the histogram of the keys over the bins 0 .. n-1. *)
Definition histogram (n : Z) (keys ncount : list Z) : Prop :=
  Z.of_nat (length ncount) = n /\
  forall g, 0 <= g < n -> nth_error ncount (Z.to_nat g) = Some (count_of keys g).

(** [igroup] holds, for every bin g, from position [ifirst g] on exactly the rows with key g in ascending
    order; the bins follow each other without gaps. *)
Definition packed_rows (n : Z) (keys ncount igroup ifirst : list Z) : Prop :=
  length igroup = length keys /\ Z.of_nat (length ifirst) = n /\
  forall g, 0 <= g < n -> exists f c,
    nth_error ifirst (Z.to_nat g) = Some f /\ nth_error ncount (Z.to_nat g) = Some c /\
    f = zsum (firstn (Z.to_nat g) ncount) /\ slice igroup f c = rows_with keys g.

(** All row numbers, each once. *)
Definition all_rows (keys igroup : list Z) : Prop := Permutation igroup (map Z.of_nat (seq 0 (length keys))).

(** [r] is the next (previous) row after (before) row [i] that has the same key; [inv] if there is none. *)
Definition next_same (keys : list Z) (inv : Z) (i : nat) (r : Z) : Prop :=
  (exists j, r = Z.of_nat j /\ (i < j)%nat /\ nth_error keys j = nth_error keys i /\ (j < length keys)%nat /\
     forall k, (i < k < j)%nat -> nth_error keys k <> nth_error keys i) \/
  (r = inv /\ forall k, (i < k < length keys)%nat -> nth_error keys k <> nth_error keys i).

Definition prev_same (keys : list Z) (inv : Z) (i : nat) (r : Z) : Prop :=
  (exists j, r = Z.of_nat j /\ (j < i)%nat /\ nth_error keys j = nth_error keys i /\
     forall k, (j < k < i)%nat -> nth_error keys k <> nth_error keys i) \/
  (r = inv /\ forall k, (k < i)%nat -> nth_error keys k <> nth_error keys i).
