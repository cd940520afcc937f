(** What combining filters with group numbers should do. *)
From Verif Require Import Base CombModel HashModel HashSpec.
Local Open Scope Z_scope.

(** a row takes part if it passes the filter and its group number is one of 1 .. [max1] *)
Definition rows_kept (max1 : Z) (index : list Z) (filter : option (list bool)) : list (Z * bool) :=
  map (fun p : Z * bool => (fst p, snd p && (1 <=? fst p) && (fst p <=? max1))) (rows_filter index filter).
(** the last row that takes part with its group number *)
Definition last_row (rows : list (Z * bool)) (i : nat) (k : Z) : Prop := kept rows i k /\ forall j, (i < j)%nat -> ~ kept rows j k.
(** [first]: for each group its first (or last) row, or the invalid value *)
Definition rows_of_groups (last : bool) (max1 : Z) (rows : list (Z * bool)) (first : list Z) : Prop :=
  Z.of_nat (length first) = max1 + 1 /\
  forall g f, nth_error first g = Some f ->
    (exists r, f = Z.of_nat r /\ (if last then last_row rows r (Z.of_nat g) else first_row rows r (Z.of_nat g))) \/
    (f = - 2 ^ 63 /\ forall r, ~ kept rows r (Z.of_nat g)).
(** a group number of [w] bits *)
Definition has_width (w : Z) (l : list Z) : Prop := forall x, In x l -> - 2 ^ (w - 1) <= x < 2 ^ (w - 1).
Definition blank (c : Z) : bool := (c =? 32) || (c =? 0).
(** [r] is [s] with its trailing blanks replaced by zeros *)
Definition trimmed (s r : list Z) : Prop := exists k, (k <= length s)%nat /\ r = firstn k s ++ repeat 0 (length s - k) /\
  (forall c, In c (skipn k s) -> blank c = true) /\ (forall c, nth_error s (k - 1) = Some c -> (0 < k)%nat -> blank c = false).
(** [l] shifted by [k]: item [i] is the former item [i + k] if there is one, else it is unchanged *)
Definition shifted {A} (k : Z) (l l' : list A) : Prop := length l' = length l /\
  forall i, (i < length l)%nat -> nth_error l' i =
    (if (0 <=? Z.of_nat i + k) && (Z.of_nat i + k <? Z.of_nat (length l)) then nth_error l (Z.to_nat (Z.of_nat i + k)) else nth_error l i).
(** item number [j] of [size] items in the part [i] of a list *)
Definition part_of {A} (size : nat) (l : list A) (i : nat) : list A := firstn size (skipn (i * size) l).
(** row [i] passes the filter *)
Definition pass_at (filter : option (list bool)) (i : nat) : bool := match filter with None => true | Some f => nth i f false end.
