(** Definitions for the theorems about LexSort32 and LexSort64. *)
From Verif Require Import Base Mem Num SortModel SortSpec AllModel AllSpec EaModel EaSpec LxModel.
Local Open Scope Z_scope.

(** Text: the first character that differs decides. *)
Fixpoint text_before (s t : list Z) : bool :=
  match s, t with c :: s', d :: t' => (c <? d) || ((c =? d) && text_before s' t') | _, _ => false end.
(** The items that come first: the smaller ones, or the greater ones if the order is descending; NaNs come last in both. *)
Definition item_before (asc : bool) (x y : value) : Prop :=
  match x, y with
  | I a, I b => if asc then a < b else b < a
  | R (Fl a), R (Fl b) => is_nan a = false /\ (is_nan b = true \/ (if asc then flt a b else flt b a) = true)
  | R (Tx s), R (Tx t) => (if asc then text_before s t else text_before t s) = true
  | _, _ => False
  end.
(** The types that have an order: numbers and text. *)
Definition ordered_type (d : Z) : bool := ((0 <=? d) && (d <=? 13)) || (d =? 18) || (d =? 19).
(** The items of a column are those of its type; a text has the same number of characters in all rows.  Raw bytes (20) have another order, see C51. *)
Definition items_ok (c : column cell) : Prop :=
  c_dtype c <> 20 /\
  (0 <= c_dtype c <= 10 -> exists l, c_vals c = map I l) /\
  (11 <= c_dtype c <= 13 -> exists l, c_vals c = map (fun x => R (Fl x)) l) /\
  (c_dtype c = 18 \/ c_dtype c = 19 -> exists k l, c_vals c = map (fun s => R (Tx s)) l /\ Forall (fun s : list Z => length s = k) l).
(** Row [x] is before row [y] in a column with a direction; neither is. *)
Definition before (c : bool * column cell) (x y : Z) : Prop :=
  ordered_type (c_dtype (snd c)) = true /\
  exists v w, nth_error (c_vals (snd c)) (Z.to_nat x) = Some v /\ nth_error (c_vals (snd c)) (Z.to_nat y) = Some w /\ item_before (fst c) v w.
Definition alike (c : bool * column cell) (x y : Z) : Prop := ~ before c x y /\ ~ before c y x.
(** Rows by several columns: the last one in which they differ decides. *)
Definition row_before (cols : list (bool * column cell)) (x y : Z) : Prop :=
  exists pre c post, cols = pre ++ c :: post /\ before c x y /\ Forall (fun c => alike c x y) post.
Definition rows_alike (cols : list (bool * column cell)) (x y : Z) : Prop := ~ row_before cols x y /\ ~ row_before cols y x.

(** The rows [from] .. [from + n - 1] in order, counted from 0; rows that are alike stay as they are. *)
Definition in_row_order (cols : list (bool * column cell)) (from n : Z) (r : list Z) : Prop :=
  Permutation r (map Z.of_nat (seq 0 (Z.to_nat n))) /\
  forall i j x y, (i < j)%nat -> nth_error r i = Some x -> nth_error r j = Some y ->
    row_before cols (from + x) (from + y) \/ (rows_alike cols (from + x) (from + y) /\ x < y).
(** The rows of an index in order, where rows that are alike stay as they are. *)
Definition index_order (cols : list (bool * column cell)) (index r : list Z) : Prop :=
  exists lt, (forall x y, In x index -> In y index -> (lt x y = true <-> row_before cols x y)) /\ stable_sort lt index r.

(** The directions of [n] columns. *)
Definition direction_ok (n : nat) (d : direction) : Prop :=
  match d with DArray a => a_dtype a = 0 /\ arg_ok (Z.of_nat n) a /\ gapless a /\ Forall (fun b => b = 0 \/ b = 1) (a_mem a) | _ => True end.
Definition directions (n : nat) (d : direction) : list bool :=
  match d with DArray a => map (fun b => negb (b =? 0)) (arg_vals 0 a) | DBool b => repeat b n | _ => repeat true n end.
(** Nothing is given, or what is ignored. *)
Definition not_given (p : param Z) : Prop := p = PNone \/ p = POther.
Definition index_given (bits n : Z) (a : arg Z) : Prop :=
  (if bits =? 32 then a_dtype a = 5 else a_dtype a = 7 \/ a_dtype a = 9) /\ 0 < a_len a <= n /\ arg_ok (a_len a) a /\ gapless a /\ Forall (fun x => 0 <= x < n) (arg_vals 0 a).
Definition cutoffs_given (n : Z) (a : arg Z) : Prop :=
  (a_dtype a = 7 \/ a_dtype a = 9) /\ 0 < a_len a /\ arg_ok (a_len a) a /\ gapless a /\ cutoffs_ok 0 n (arg_vals 0 a).
Definition cut_fine (n : Z) (c : param Z) : Prop := not_given c \/ exists a, c = PArray a /\ cutoffs_given n a.

(** ** For examples *)
Definition one_thread : threads := mkThreads false (fun _ _ => 0%nat) in_order (fun _ => 77).
Definition icol (d : Z) (l : list Z) : column cell := mkCol d 1 (map I l) 8 8.
Definition fcol (l : list fl) : column cell := mkCol 12 1 (map (fun x => R (Fl x)) l) 8 8.
Definition tcol (k : Z) (l : list (list Z)) : column cell := mkCol 18 1 (map (fun x => R (Tx x)) l) k k.
Definition block (d : Z) (l : list Z) : arg Z := mkArg d l 0 1 (Z.of_nat (length l)).
