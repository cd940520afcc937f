(** Indexes of arrays of several dimensions. *)
From Verif Require Import Base LayoutModel.
Local Open Scope Z_scope.

(** an index within the shape *)
Definition valid (ds : list nat) (idx : list nat) : Prop := Forall2 (fun i d => (i < d)%nat) idx ds.
(** the byte offset of an item *)
Fixpoint offset (ss : list Z) (idx : list nat) : Z :=
  match ss, idx with s :: ss', i :: idx' => Z.of_nat i * s + offset ss' idx' | _, _ => 0 end.
(** the item at the index [idx] of the output, whose order is that of a new array, comes from the item at the index [idx] of the input *)
Definition same_items (l out : layout) (o : list (option Z)) : Prop :=
  length o = prod (dims l) /\
  forall idx, valid (dims l) idx -> exists p, offset (strides out) idx = Z.of_nat p * isz out /\ nth_error o p = Some (Some (offset (strides l) idx)).
(** the order of the output *)
Definition like (l : layout) (osize : Z) : layout := new_array (f_flag (isz l) (dims l) (strides l)) (dims l) osize.
(** a non-empty array *)
Definition good (l : layout) : Prop := Forall (fun d => 0 < d)%nat (dims l) /\ length (strides l) = length (dims l).
