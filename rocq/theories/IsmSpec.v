(** What IsMember32 and IsMemberCategorical are meant to return, for arrays as numpy describes them. *)
From Verif Require Import Base Mem HashModel HashSpec IsmModel.
Local Open Scope Z_scope.

(** numpy's size of an item of type [d] *)
Definition item_size (d n : Z) : Prop :=
  match d with
  | 0 | 1 | 2 => n = 1 | 3 | 4 | 23 => n = 2 | 5 | 6 | 11 => n = 4 | 7 | 8 | 9 | 10 | 12 | 14 | 17 | 21 | 22 => n = 8 | 13 | 15 => n = 16 | 16 => n = 32
  | 19 => 0 <= n /\ n mod 4 = 0
  | _ => 0 <= n
  end.

(** The items of the array, one stride after the other. *)
Definition elements (a : array) : option (list (list Z)) := items_at (a_item a) (a_stride a) a.

(** An array of numpy with the items [xs]. *)
Record holds (a : array) (xs : list (list Z)) : Prop := {
  ho_len : 0 <= a_len a;
  ho_item : item_size (a_dtype a) (a_item a);
  ho_items : elements a = Some xs;
  ho_bytes : forall x, In x xs -> forall c, In c x -> 0 <= c < 256
}.

(** One item after the other. *)
Definition contiguous (a : array) : Prop := a_stride a = a_item a.

(** The same type for numpy on a machine whose long has 8 bytes *)
Definition same_type (d1 d2 : Z) : Prop :=
  d1 = d2 \/ (In d1 [7; 9] /\ In d2 [7; 9]) \/ (In d1 [8; 10] /\ In d2 [8; 10]).
(** Types whose items can be compared: integers, float32, float64, text, void, dates and spans. *)
Definition comparable (d : Z) : Prop := 0 <= d <= 12 \/ 18 <= d <= 22.

(** The characters of an item *)
Definition characters (d : Z) (x : list Z) : list Z := if d =? 19 then chars (length x / 4) x else x.
(** Equal items of type [d]: floats as numbers, text but for zeros at the end, all others by their bytes (so NaT equals NaT). *)
Definition value_eq (d : Z) (x y : list Z) : Prop :=
  if d =? 11 then feq_bits 32 8 (word x) (word y) = true
  else if d =? 12 then feq_bits 64 11 (word x) (word y) = true
  else if (d =? 18) || (d =? 19) then same_text (characters d x) (characters d y)
  else x = y.

(** No zeros of both signs; text of different widths has nothing after its first 0; void items have one size. *)
Definition plain (a1 a2 : array) (xs ys : list (list Z)) : Prop :=
  let d := a_dtype a1 in
  (d = 11 -> one_zero 32 8 (map word (xs ++ ys))) /\
  (d = 12 -> one_zero 64 11 (map word (xs ++ ys))) /\
  (d = 18 \/ d = 19 -> a_item a1 <> a_item a2 ->
     padded (text_width (d =? 19) (a_item a1)) (map (characters d) xs) /\ padded (text_width (d =? 19) (a_item a2)) (map (characters d) ys)) /\
  (d = 20 -> a_item a1 = a_item a2).

(** The hash table has room for all rows of the second array: the hint is 0 or at least their number. *)
Definition room (hint n : Z) : Prop := n < 68719476731 /\ (hint = 0 \/ n <= hint < 68719476731).

(** The type of rows when there are [n] of them: int8 below 100, int16 below 30000, int32 below 2000000000, else int64 *)
Definition rows_type (n : Z) : Z := if n <? 100 then 1 else if n <? 30000 then 3 else if n <? 2000000000 then 5 else 7.
(** The least number of the type: int8, int16, int32 and int64 *)
Definition missing (d : Z) : Z := match d with 1 => -128 | 3 => -32768 | 5 => -2147483648 | _ => -9223372036854775808 end.
(** The flags and the rows of the items [xs] in [ys]; -128, -2^15, ... where there is none *)
Definition found_rows (d : Z) (xs ys : list (list Z)) (r : found) : Prop :=
  exists rs, member_spec (value_eq d) (missing (f_dtype r)) ys xs rs /\
    f_flags r = map (fun p : bool * Z => if fst p then 1 else 0) rs /\ f_index r = map snd rs.

(** The arguments after the arrays: a hash mode of 1 or 2, a table with room for all rows *)
Definition args_ok (args : option (Z * option Z)) (n : Z) : Prop :=
  match args with
  | None => room 0 n
  | Some (h, o) => (h = 1 \/ h = 2) /\ room (match o with Some k => k | None => 0 end) n
  end.
(** Text is read as text: its items are not 1, 2, 4 or 8 bytes in both arrays *)
Definition as_text (a1 a2 : array) : bool := (18 <=? a_dtype a1) && negb ((a_item a1 =? a_item a2) && existsb (Z.eqb (a_item a1)) [1; 2; 4; 8]).
