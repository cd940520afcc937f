(** Membership in a haystack that is divided among several hash maps. *)
From Verif Require Import Base Mem Inter HashModel HashSpec MtgModel.
Local Open Scope Z_scope.

(** every order in which a storer can take its messages *)
Definition mixes {K} (mix : nat -> list (list (list (Z * K))) -> list (list (Z * K))) : Prop := forall b ps, interleave ps (mix b ps).
(** [r] for the needle [x]: whether it equals some item of [b], and one such item, else [bad] *)
Definition occurs_row {K} (eqv : K -> K -> Prop) (bad : Z) (b : list K) (x : K) (r : bool * Z) : Prop :=
  (exists j y, nth_error b j = Some y /\ eqv x y /\ r = (true, Z.of_nat j)) \/ ((forall y, In y b -> ~ eqv x y) /\ r = (false, bad)).
Definition occurs_spec {K} (eqv : K -> K -> Prop) (bad : Z) (b : list K) (a : list K) (res : list (bool * Z)) : Prop := Forall2 (occurs_row eqv bad b) a res.
(** no two items are equal *)
Definition distinct {K} (eqv : K -> K -> Prop) (b : list K) : Prop :=
  forall i j x y, nth_error b i = Some x -> nth_error b j = Some y -> eqv x y -> i = j.
(** the part [j] of the haystack holds a value that leaves the remainder [c] *)
Definition has_class (G : Z) (b : list Z) (nb : nat) (j c : nat) : Prop :=
  exists i x, G * Z.of_nat j <= Z.of_nat i < G * (Z.of_nat j + 1) /\ nth_error b i = Some x /\ (x mod 2 ^ 64) mod Z.of_nat nb = Z.of_nat c.
