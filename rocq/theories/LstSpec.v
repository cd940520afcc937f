(** What is asked of arrays made of lists. *)
From Verif Require Import Base LstModel.
Local Open Scope Z_scope.

(** equal but for zeros at the end *)
Definition same_text (a b : list Z) : Prop := forall i, nth i a 0 = nth i b 0.
Definition cut (d : list Z) (w i : nat) : list Z := firstn w (skipn (i * w) d).
(** the items of an array are those of the list *)
Definition denotes (a : arr) (l : list pval) : Prop :=
  match a with
  | AInt _ zs => l = map VInt zs
  | ABool bs => l = map VBool bs
  | AFloat fs => l = map VFloat fs
  | ABytes w d => length d = (length l * Z.to_nat w)%nat /\ forall i v, nth_error l i = Some v -> exists s, v = VBytes s /\ same_text (cut d (Z.to_nat w) i) s
  | AStr w d => length d = (length l * Z.to_nat (w / 4))%nat /\ forall i v, nth_error l i = Some v -> exists s, v = VStr s /\ same_text (cut d (Z.to_nat (w / 4)) i) s
  end.
(** the items are all ints, all bools, all floats, all bytes or all strings *)
Definition one_kind (l : list pval) : Prop :=
  (exists zs, l = map VInt zs) \/ (exists bs, l = map VBool bs) \/ (exists fs, l = map VFloat fs) \/ (exists ss, l = map VBytes ss) \/ (exists ss, l = map VStr ss).
(** the cases that are right: ints of 64 bits, bytes of which not all are empty, strings of which none is shorter than another by 2 *)
Definition fits (l : list pval) : Prop :=
  (forall z, In (VInt z) l -> - 2 ^ 63 <= z < 2 ^ 63) /\
  (forall s, In (VBytes s) l -> exists c t, In (VBytes (c :: t)) l) /\
  (forall s t, In (VStr s) l -> In (VStr t) l -> (length t <= S (length s))%nat).
