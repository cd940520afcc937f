(** What an operation on two operands should do with its output array. *)
From Verif Require Import Base Mem OutModel.
Local Open Scope Z_scope.

Definition loads (es : list event) : list chunk := concat (map (fun e => match e with Load c => [c] | Store _ => [] end) es).
Definition stores (es : list event) : list chunk := concat (map (fun e => match e with Store c => [c] | Load _ => [] end) es).
(** the events of any number of threads, in any order: each of the [n] items is loaded once and stored once, each chunk after its load *)
Definition schedule (n : nat) (es : list event) : Prop :=
  Permutation (concat (map items (loads es))) (seq 0 n) /\ Permutation (loads es) (stores es)
  /\ forall p c q, es = p ++ Store c :: q -> In (Load c) p.
(** an operand with [n] items that are not wider than those of the output *)
Definition fits_out (n : nat) (out : view) (o : operand) : Prop :=
  match o with Reg _ => True | Ram v => cnt v = n /\ 0 < isz v <= isz out end.
(** an index of an array with these dimensions *)
Definition index_of (d idx : list nat) : Prop := Forall2 (fun i n => (i < n)%nat) idx d.
Definition well_formed (a : nd) : Prop := length (strides a) = length (dims a).
(** the items along the first dimension follow each other, or there is at most one *)
Definition packed_first (a : nd) : Prop := forall n t d s, dims a = n :: d -> strides a = t :: s -> (n <= 1)%nat \/ t = nsize a.
(** as many items, or one of the arrays has a single item and the other is not empty *)
Definition lengths_go (n m : nat) : Prop := n = m \/ n = 1%nat /\ (1 <= m)%nat \/ m = 1%nat /\ (1 <= n)%nat.
