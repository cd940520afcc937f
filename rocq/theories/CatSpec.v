(** What is asked of adding arrays of strings. *)
From Verif Require Import Base LstModel LstSpec CatModel.
Local Open Scope Z_scope.

(** without zeros at the end *)
Fixpoint strip (l : list Z) : list Z := match l with [] => [] | c :: r => match strip r with [] => if c =? 0 then [] else [c] | t => c :: t end end.
(** zeros only at the end *)
Definition clean (l : list Z) : Prop := ~ In 0 (strip l).
(** an array of one dimension and [n] items that follow each other *)
Definition row (n : nat) (a : sarr) : Prop :=
  s_dims a = [Z.of_nat n] /\ s_strides a = [Z.of_nat (s_item a)] /\ (n * s_item a <= length (s_mem a))%nat /\ (1 <= s_item a)%nat.
Definition item_of (a : sarr) (i : nat) : list Z := cut (s_mem a) (s_item a) i.
Definition clean_row (n : nat) (a : sarr) : Prop := forall i, (i < n)%nat -> clean (item_of a i).
(** the result has [n] items of type [t], the [i]th of which is the text [f i] *)
Definition holds (r : added) (t : Z) (n : nat) (f : nat -> list Z) : Prop :=
  exists w d, r = NewArr t w (Z.of_nat n) d /\ length d = (n * w)%nat /\ forall i, (i < n)%nat -> same_text (cut d w i) (f i).
(** the scalar is of the type of the array *)
Definition chars (s : sscalar) : list Z := match s with SBytes x | SStr x => x | SNum => [] end.
Definition suits (s : sscalar) (t : Z) : Prop := match s with SBytes _ => t = 18 | SStr _ => t = 19 | SNum => False end.
