(** Dates and times: the calendar and the texts. *)
From Verif Require Import Base Mem DateModel.
Local Open Scope Z_scope.

(** The Gregorian calendar. *)
Definition leap (y : Z) : bool := ((y mod 4 =? 0) && negb (y mod 100 =? 0)) || (y mod 400 =? 0).
Definition month_days (y m : Z) : Z :=
  if m =? 2 then (if leap y then 29 else 28) else if (m =? 4) || (m =? 6) || (m =? 9) || (m =? 11) then 30 else 31.
Definition year_days (y : Z) : Z := if leap y then 366 else 365.
(** the sum of [f] over the [k] numbers from [a] on *)
Fixpoint sum_from (f : Z -> Z) (a : Z) (k : nat) : Z := match k with O => 0 | S k' => f a + sum_from f (a + 1) k' end.
(** days from 1970-01-01 to the day [y]-[m]-[d] *)
Definition epoch_day (y m d : Z) : Z := sum_from year_days 1970 (Z.to_nat (y - 1970)) + sum_from (month_days y) 1 (Z.to_nat (m - 1)) + (d - 1).
Definition valid_date (y m d : Z) : Prop := 1970 <= y <= 2099 /\ 1 <= m <= 12 /\ 1 <= d <= month_days y m.
Definition nanos (y m d : Z) : Z := epoch_day y m d * (24 * 60 * 60 * 1000000000).

(** [v] in [k] decimal digits *)
Fixpoint digits (k : nat) (v : Z) : list Z := match k with O => [] | S k' => digits k' (v / 10) ++ [48 + v mod 10] end.
Definition blank (l : list Z) : Prop := forall c, In c l -> c = 32 \/ 9 <= c <= 13.
(** spaces, then the zeros that numpy pads with *)
Definition padding (l : list Z) : Prop := exists a b, l = a ++ repeat 0 b /\ blank a.

Definition dash (with_dash : bool) : list Z := if with_dash then [45] else [].
Definition date_text (with_dash : bool) (y m d : Z) : list Z := digits 4 y ++ dash with_dash ++ digits 2 m ++ dash with_dash ++ digits 2 d.

(** hours and minutes, or hours, minutes and seconds, or also a fraction of [k] digits *)
Inductive clock : Type := HM (h m : Z) | HMS (h m s : Z) | HMSF (h m s : Z) (k : nat) (f : Z).
Definition clock_text (c : clock) : list Z :=
  match c with
  | HM h m => digits 2 h ++ [58] ++ digits 2 m
  | HMS h m s => digits 2 h ++ [58] ++ digits 2 m ++ [58] ++ digits 2 s
  | HMSF h m s k f => digits 2 h ++ [58] ++ digits 2 m ++ [58] ++ digits 2 s ++ [46] ++ digits k f
  end.
Definition two (x : Z) : Prop := 0 <= x < 100.
(** two digits each, one to nine digits of the fraction *)
Definition clock_shape (c : clock) : Prop :=
  match c with
  | HM h m => two h /\ two m
  | HMS h m s => two h /\ two m /\ two s
  | HMSF h m s k f => two h /\ two m /\ two s /\ (1 <= k <= 9)%nat /\ 0 <= f < 10 ^ Z.of_nat k
  end.
Definition clock_ok (c : clock) : Prop :=
  match c with HM h m => h < 24 /\ m < 60 | HMS h m s | HMSF h m s _ _ => h < 24 /\ m < 60 /\ s < 60 end.
Definition clock_nanos (c : clock) : Z :=
  match c with
  | HM h m => (h * 60 + m) * 60 * 1000000000
  | HMS h m s => ((h * 60 + m) * 60 + s) * 1000000000
  | HMSF h m s k f => ((h * 60 + m) * 60 + s) * 1000000000 + f * 10 ^ (9 - Z.of_nat k)
  end.
Definition has_seconds (c : clock) : Prop := match c with HM _ _ => False | _ => True end.
Definition delim (t : bool) : Z := if t then 84 else 32.

(** characters that may be given to isspace *)
Definition plain (l : list Z) : Prop := forall c, In c l -> -1 <= c <= 255.
Definition no_digit (l : list Z) : Prop := forall c, In c l -> is_digit c = false.
