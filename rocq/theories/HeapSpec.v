(** The quantile of a rolling window: what it is meant to be. *)
From Verif Require Import Base AccumSpec GrpxSpec HeapModel.

Section Spec.
  Context {T U : Type} (less : T -> T -> bool) (valid : T -> bool) (uinv : U) (conv : T -> U) (split : T -> T -> U).
  Context (index : nat -> nat) (integral : nat -> bool).
  (** item [index n] of the [n] valid items in order, or the midpoint of the two items around it *)
  Definition quantile_of (w : list T) (u : U) : Prop :=
    let v := filter valid w in
    let n := length v in
    if n =? 0 then u = uinv
    else exists s, sorted_of less v s /\
      if integral n then exists a, nth_error s (index n) = Some a /\ u = conv a
      else exists a b, nth_error s (index n) = Some a /\ nth_error s (S (index n)) = Some b /\ u = split a b.
  Definition quantile_row (win : Z) (l : list T) (k : nat) (u : U) : Prop := quantile_of (window win k l) u.
  (** the last [w] items *)
  Definition lastw (w : nat) (l : list T) : list T := skipn (length l - w) l.
  Definition values (m : mem T) (h : list nat) (v : list T) : Prop := map (fun e => option_map e_dat (get m e)) h = map Some v.
  (** the two heaps: together the valid items of the window, none of the first above any of the second, each with a largest
      (smallest) item at its top, and one item more in the first than the index *)
  Definition two_heaps (w : nat) (l : list T) (s : rq) : Prop :=
    exists va vb, values (elems s) (maxh s) va /\ values (elems s) (minh s) vb /\
      Permutation (va ++ vb) (filter valid (lastw w l)) /\
      (forall a b, In a va -> In b vb -> less b a = false) /\
      (forall a x, hd_error va = Some a -> In x va -> less a x = false) /\
      (forall b x, hd_error vb = Some b -> In x vb -> less x b = false) /\
      (length (va ++ vb) = 0 \/ length va = index (length (va ++ vb)) + 1).
  (** what the index must satisfy: it is inside, and grows by at most one with the number of items *)
  Definition index_ok : Prop :=
    (forall n, 0 < n -> index n < n) /\
    (forall n, 0 < n -> index n <= index (S n) <= S (index n)) /\
    (forall n, 0 < n -> integral n = false -> S (index n) < n).
End Spec.

(** the exact index of the quantile [k] / 10^9 among [n] items: its whole part, and whether it is whole *)
Definition exact_index (k : Z) (n : nat) : nat := Z.to_nat ((Z.of_nat n - 1) * k / MULT).
Definition exact_whole (k : Z) (n : nat) : bool := ((Z.of_nat n - 1) * k mod MULT =? 0)%Z.
(** the index is not within 1/1000 of a whole number other than itself *)
Definition clear_index (k : Z) (n : nat) : Prop :=
  let f := ((Z.of_nat n - 1) * k mod MULT)%Z in (f = 0 \/ 1000000 <= f <= MULT - 1000000)%Z.
