(** What Sort, SortInPlace, SortInPlaceIndirect and IsSorted should do. *)
From Verif Require Import Base Mem Num AllModel AllSpec EaModel EaSpec.
From Verif Require SortSpec SrModel.
Local Open Scope Z_scope.

(** [x] has to come before [y]: it is less, or a number before NaN. *)
Definition before (x y : fl) : Prop := flt x y = true \/ (is_nan x = false /\ is_nan y = true).
Definition in_order (r : list fl) : Prop :=
  forall i j x y, (i < j)%nat -> nth_error r i = Some x -> nth_error r j = Some y -> ~ before y x.
(** An array of a numeric type without gaps; integers are finite. *)
Definition numeric (a : arg fl) : Prop :=
  0 <= a_dtype a <= 13 /\ 0 <= a_len a < 2 ^ 63 /\ arg_ok (a_len a) a /\ gapless a /\
  (a_dtype a <= 10 -> Forall (fun v => is_finite v = true) (arg_vals NaN a)).
(** The sort modes.  The merge sort compares floating point numbers as float: no element may be changed by that. *)
Definition mode_given (single : fl -> fl) (mode : Z) (a : arg fl) : Prop :=
  1 <= mode <= 3 /\ (mode = 2 -> 11 <= a_dtype a -> Forall (fun v => single v = v) (arg_vals NaN a)).
(** The array [a] in the memory [mem]. *)
Definition in_memory {X} (a : arg X) (mem : list X) : arg X := mkArg (a_dtype a) mem (a_start a) (a_step a) (a_len a).
(** Nothing but the [len] elements from [start] on differs. *)
Definition elsewhere {X} (start len : Z) (mem mem' : list X) : Prop :=
  length mem' = length mem /\ forall i, Z.of_nat i < start \/ start + len <= Z.of_nat i -> nth_error mem' i = nth_error mem i.

(** Items of [size] bytes, without gaps. *)
Definition texts (size : Z) (a : arg (list Z)) : Prop :=
  0 < size /\ 0 <= a_len a < 2 ^ 63 /\ arg_ok (a_len a) a /\ gapless a /\ Forall (SortSpec.item (Z.to_nat size)) (arg_vals [] a).
(** The first character that differs decides.  The characters of a unicode string have 4 bytes, the lowest first. *)
Definition char_at (width : nat) (s : list Z) (i : nat) : Z :=
  fold_right (fun k acc => nth (width * i + k) s 0 + 256 * acc) 0 (seq 0 width).
Definition text_less (width : nat) (size : Z) (s t : list Z) : Prop :=
  exists i, (width * i < Z.to_nat size)%nat /\ char_at width s i < char_at width t i /\ forall j, (j < i)%nat -> char_at width s j = char_at width t j.
Definition width_of (d : Z) : nat := if d =? 19 then 4%nat else 1%nat.

(** [sort] lists every number below its length once, and the keys are such numbers. *)
Definition reorders (sort : list Z) : Prop := NoDup sort /\ Forall (fun s => 0 <= s < Z.of_nat (length sort)) sort.
Definition whole_array {X} (a : arg X) : Prop := 0 <= a_len a < 2 ^ 63 /\ arg_ok (a_len a) a /\ gapless a.
Definition key_types (dkey dsort : Z) : Prop := dkey = 5 /\ dsort = 5 \/ dkey = 5 /\ dsort = 7 \/ dkey = 7 /\ dsort = 7.

(** Each number is at least the one before it; NaNs may follow. *)
Definition ascending : list fl -> Prop := SortSpec.nondecreasing (fun x y => fle y x) is_nan.
(** Gaps, or another type. *)
Definition not_accepted (x : SrModel.items) : Prop :=
  match x with
  | SrModel.Nums a => (1 < a_len a /\ a_step a <> 1) \/ ~ 0 <= a_dtype a <= 13
  | SrModel.Texts _ a => (1 < a_len a /\ a_step a <> 1) \/ ~ 18 <= a_dtype a <= 20
  end.
