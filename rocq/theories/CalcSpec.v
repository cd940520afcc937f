(** Bit counts, CRC-64, invalid-passing minimum and maximum, time windows: what they are meant to be. *)
From Verif Require Import Num Base Mem CalcModel.
Local Open Scope Z_scope.

(** The number of one bits among the low [w] bits of the two's complement number [n]. *)
Definition ones (w : Z) (n : Z) : Z := Z.of_nat (countb (fun i => Z.testbit n (Z.of_nat i)) (seq 0 (Z.to_nat w))).

(** CRC-64, reflected: one message bit at a time, least significant bit of each byte first; all bits of the register
    are inverted before and after. *)
Definition crc_step (poly : Z) (c : Z) (b : bool) : Z :=
  if xorb (Z.odd c) b then Z.lxor (Z.shiftr c 1) poly else Z.shiftr c 1.
Definition bits_of (n : nat) (b : Z) : list bool := map (fun i => Z.testbit b (Z.of_nat i)) (seq 0 n).
Definition message_bits (bytes : list Z) : list bool := concat (map (bits_of 8) bytes).
Definition crc64 (poly : Z) (crc : Z) (bytes : list Z) : Z :=
  Z.lxor (fold_left (crc_step poly) (message_bits bytes) (Z.lxor crc ones64)) ones64.
Definition is_bytes (l : list Z) : Prop := forall b, In b l -> 0 <= b < 256.

(** A binary reduction in any grouping: a tree over the items. *)
Inductive tree (A : Type) : Type := Leaf (x : A) | Node (l r : tree A).
Arguments Leaf {A} x. Arguments Node {A} l r.
Fixpoint leaves {A} (t : tree A) : list A := match t with Leaf x => [x] | Node l r => leaves l ++ leaves r end.
Fixpoint reduce {A} (f : A -> A -> A) (t : tree A) : A := match t with Leaf x => x | Node l r => f (reduce f l) (reduce f r) end.

(** The time window of row [i]: rows [lo] to [i]; [r]: the values combined from row [i] backwards. *)
Definition window_of (times : list Z) (delta : Z) (i lo : nat) : Prop :=
  (lo <= i)%nat /\ forall j ti tj, (j < i)%nat -> nth_error times i = Some ti -> nth_error times j = Some tj -> ((lo <= j)%nat <-> ti - tj <= delta).
Definition window_row {T U} (conv : T -> U) (op : U -> T -> U) (vals : list T) (times : list Z) (delta : Z) (i : nat) (r : U) : Prop :=
  exists lo x, window_of times delta i lo /\ nth_error vals i = Some x /\
    r = fold_left op (rev (firstn (i - lo) (skipn lo vals))) (conv x).
Definition sorted_times (times : list Z) : Prop :=
  forall i j x y, (i < j)%nat -> nth_error times i = Some x -> nth_error times j = Some y -> x <= y.
(** Any two times differ by less than 2^63. *)
Definition close_times (times : list Z) : Prop := forall x y, In x times -> In y times -> y - x < 2 ^ 63.

(** the items of [vals] at the rows up to [i] that lie within [delta] of row [i] *)
Definition within (vals times : list Z) (delta : Z) (i : nat) : list Z :=
  map fst (filter (fun p => nth i times 0 - snd p <=? delta) (firstn (S i) (combine vals times))).
Definition zsum (l : list Z) : Z := fold_right Z.add 0 l.
Definition zprod (l : list Z) : Z := fold_right Z.mul 1 l.
