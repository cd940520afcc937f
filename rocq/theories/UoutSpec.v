(** Where the results of an operation on one array should go. *)
From Verif Require Import Base Mem LayoutModel LayoutSpec UoutModel.
Local Open Scope Z_scope.

(** the addresses of the items of an array at [a] *)
Definition at_ (l : layout) (a : Z) (x : Z) : Prop := exists idx, valid (dims l) idx /\ x = a + offset (strides l) idx.
(** after the operation the item of [out] at each index is [f] of the item of [l] at that index before it, and nothing else has changed *)
Definition stored {V} (f : V -> V) (l : layout) (a : Z) (out : layout) (b : Z) (m m' : Z -> V) : Prop :=
  (forall idx, valid (dims l) idx -> m' (b + offset (strides out) idx) = f (m (a + offset (strides l) idx)))
  /\ (forall x, ~ at_ out b x -> m' x = m x).
(** no item of one array is an item of the other, or they are the same array *)
Definition apart (l : layout) (a : Z) (out : layout) (b : Z) : Prop :=
  (forall x, at_ l a x -> ~ at_ out b x) \/ (a = b /\ strides l = strides out).
(** the layouts: one dimension with any strides; both in C order; both in Fortran order; rows of one stride into C order *)
Inductive matching : layout -> layout -> Prop :=
  | OneDim l out : (length (dims l) <= 1)%nat -> ((prod (dims l) <= 1)%nat \/ nth 0 (strides out) 0 <> 0) -> matching l out
  | BothC l out : strides l = cstrides (isz l) (dims l) -> strides out = cstrides (isz out) (dims out) -> matching l out
  | BothF l out : strides l = fstrides (isz l) (dims l) -> strides out = fstrides (isz out) (dims out) -> matching l out
  | Rows l out d0 ds S0 s : dims l = d0 :: ds -> ds <> [] -> strides l = S0 :: cstrides s ds -> (1 < d0)%nat ->
      (1 < nth (length ds - 1) ds 0)%nat \/ s = isz l -> Z.abs s < Z.abs S0 -> strides out = cstrides (isz out) (dims out) -> matching l out.
