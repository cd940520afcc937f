(** Specification of searchsorted and of cutting into bins. *)
From Verif Require Import Base Mem Num.
Local Open Scope Z_scope.

(** Ascending, duplicates allowed / strictly ascending. *)
Definition ascending (l : list Z) : Prop := forall i j x y, (i < j)%nat -> nth_error l i = Some x -> nth_error l j = Some y -> x <= y.
Definition strictly_ascending (l : list Z) : Prop := forall i j x y, (i < j)%nat -> nth_error l i = Some x -> nth_error l j = Some y -> x < y.

(** The order in which NaN comes after everything else (numpy's sort order). *)
Definition num_le (a b : fl) : bool := is_nan b || fle a b.
Definition num_lt (a b : fl) : bool := negb (is_nan a) && (is_nan b || flt a b).

(** searchsorted right / left: how many edges are <= v, < v. *)
Definition count_le (edges : list Z) (v : fl) : Z := Z.of_nat (length (filter (fun e => num_le (Fin e) v) edges)).
Definition count_lt (edges : list Z) (v : fl) : Z := Z.of_nat (length (filter (fun e => num_lt (Fin e) v) edges)).

(** Value [v] belongs to bin [b] >= 1: e_{b-1} < v <= e_b, and the first edge itself belongs to bin 1. *)
Definition in_bin (edges : list Z) (v : fl) (b : Z) : Prop :=
  (1 <= b /\ exists lo hi, nth_error edges (Z.to_nat (b - 1)) = Some lo /\ nth_error edges (Z.to_nat b) = Some hi /\
      flt (Fin lo) v = true /\ fle v (Fin hi) = true)
  \/ (b = 1 /\ exists e0, nth_error edges 0 = Some e0 /\ feq v (Fin e0) = true).

(** The conversions between value and edge type preserve the comparisons of these values and edges. *)
Definition casts_agree (castT castB : Z -> Z) (edges : list Z) : Prop :=
  forall e z, In e edges -> (castT e < z <-> e < castB z) /\ (z < castT e <-> castB z < e).

(** The text of a fixed-width string: up to the first zero byte. *)
Fixpoint text (s : list Z) : list Z :=
  match s with x :: s' => if x =? 0 then [] else x :: text s' | [] => [] end.
(** No byte after the first zero byte: zero-padded, as numpy stores strings without embedded zeros. *)
Definition zero_padded (s : list Z) : Prop := exists t k, s = t ++ repeat 0 k /\ ~ In 0 t.

(** Lexicographic order of texts. *)
Fixpoint lex (a b : list Z) : comparison :=
  match a, b with
  | [], [] => Eq
  | [], _ => Lt
  | _, [] => Gt
  | x :: a', y :: b' => match x ?= y with Eq => lex a' b' | r => r end
  end.

(** Bin of a text among strictly ascending edge texts. *)
Definition text_in_bin (edges : list (list Z)) (v : list Z) (b : Z) : Prop :=
  (1 <= b /\ exists lo hi, nth_error edges (Z.to_nat (b - 1)) = Some lo /\ nth_error edges (Z.to_nat b) = Some hi /\
      lex lo v = Lt /\ lex v hi <> Gt)
  \/ (b = 1 /\ nth_error edges 0 = Some v).

(** The bin number of the sort-index variant: 0 for invalid and infinite values, 1 for values outside the
    edges, else one more than the bin. *)
Definition sorted_bin (edges : list Z) (v : fl) (r : Z) : Prop :=
  if is_finite v
  then (r = 1 /\ ~ (exists b, in_bin edges v b)) \/ (exists b, in_bin edges v b /\ r = b + 1)
  else r = 0.

(** The number of edges the arithmetic of the search is safe for. *)
Definition edges_ok (n : Z) : Prop := 0 < n /\ (n <= 2 ^ 30 \/ 2000000000 < n <= 2 ^ 62).

(** Bytes, zero-padded. *)
Definition good_string (s : list Z) : Prop := zero_padded s /\ forall x, In x s -> 0 <= x.

(** Edge texts strictly ascending. *)
Definition texts_ascending (edges : list (list Z)) : Prop :=
  forall i j x y, (i < j)%nat -> nth_error edges i = Some x -> nth_error edges j = Some y -> lex (text x) (text y) = Lt.

(** Value of a row. *)
Definition value_at (vals : list fl) (i : Z) : fl := match zrd vals i with Some v => v | None => NaN end.

(** ascending in numpy's order (NaN last) *)
Definition sorted_by_index (vals : list fl) (sidx : list Z) : Prop :=
  forall i j a b, (i < j)%nat -> nth_error sidx i = Some a -> nth_error sidx j = Some b ->
    num_le (value_at vals a) (value_at vals b) = true.
