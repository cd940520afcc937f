(** Texts of moments by a format. *)
From Coq Require Import Ascii String.
From Verif Require Import Base Mem DateModel DateSpec StrpModel.
Import ListNotations.
Local Open Scope Z_scope.

Record moment := { year : Z; month : Z; mday : Z; hour : Z; minute : Z; second : Z }.
Definition in_range (m : moment) : Prop := valid_date (year m) (month m) (mday m) /\ 0 <= hour m < 24 /\ 0 <= minute m < 60 /\ 0 <= second m < 60.
Definition time_of_day (m : moment) : Z := 1000000000 * (hour m * 3600 + minute m * 60 + second m).

(** the parts of a format: literal characters, "%%", a space in the format and any spaces in the text, numbers with leading zeros, names in
    any case, numbers that do not matter, and conversions that stand for several *)
Inductive field := Year | Year2 | Century | Month | Day | DayE | Hour | HourK | Hour12 | Hour12L | Minute | Second.
Inductive tok :=
  | Lit (c : Z) | Percent | Blank (w : Z) (ws : list Z) | BlankN (w : Z) (ws : list Z) | Num (f : field)
  | MonthName (letter : Z) (text : list Z) | DayName (letter : Z) (text : list Z) | AmPm (text : list Z) | Other (letter : Z) (k : nat) (v : Z)
  | Group (letter : Z) (body : list tok).

Definition field_letter (f : field) : string :=
  match f with Year => "%Y" | Year2 => "%y" | Century => "%C%y" | Month => "%m" | Day => "%d" | DayE => "%e" | Hour => "%H" | HourK => "%k" | Hour12 => "%I" | Hour12L => "%l" | Minute => "%M" | Second => "%S" end.
Definition field_text (m : moment) (f : field) : list Z :=
  match f with
  | Year => digits 4 (year m)
  | Year2 => digits 2 (year m mod 100)
  | Century => digits 2 (year m / 100) ++ digits 2 (year m mod 100)
  | Month => digits 2 (month m)
  | Day | DayE => digits 2 (mday m)
  | Hour | HourK => digits 2 (hour m)
  | Hour12 | Hour12L => digits 2 (if hour m mod 12 =? 0 then 12 else hour m mod 12)
  | Minute => digits 2 (minute m)
  | Second => digits 2 (second m)
  end.
Definition tok_fmt (t : tok) : list Z :=
  match t with
  | Lit c => [c]
  | Percent => str "%%"
  | Blank w _ => [w]
  | BlankN w _ => [ch "%"; w]
  | Num f => str (field_letter f)
  | MonthName c _ | DayName c _ | Other c _ _ | Group c _ => [ch "%"; c]
  | AmPm _ => str "%p"
  end.
Fixpoint tok_text (m : moment) (t : tok) : list Z :=
  match t with
  | Lit c => [c]
  | Percent => str "%"
  | Blank _ ws | BlankN _ ws => ws
  | Num f => field_text m f
  | MonthName _ x | DayName _ x | AmPm x => x
  | Other _ k v => digits k v
  | Group _ b => flat_map (tok_text m) b
  end.
Definition fmts (ts : list tok) : list Z := flat_map tok_fmt ts.
Definition texts (m : moment) (ts : list tok) : list Z := flat_map (tok_text m) ts.
(** the parts of the groups *)
Fixpoint flat (t : tok) : list tok := match t with Group _ b => flat_map flat b | t => [t] end.
(** the groups stand for the parts they contain *)
Definition group_fmt (c : Z) : option string :=
  if c =? ch "F" then Some "%Y-%m-%d"%string else if c =? ch "D" then Some "%m/%d/%y"%string else if c =? ch "x" then Some "%m/%d/%y"%string
  else if c =? ch "T" then Some "%H:%M:%S"%string else if c =? ch "X" then Some "%H:%M:%S"%string else if c =? ch "R" then Some "%H:%M"%string
  else if c =? ch "r" then Some "%I:%M:%S %p"%string else if c =? ch "c" then Some "%x %X"%string else None.
Fixpoint groups_ok (n : nat) (t : tok) : Prop :=
  match n, t with
  | S n', Group c b => option_map str (group_fmt c) = Some (fmts b) /\ Forall (groups_ok n') b
  | O, Group _ _ => False
  | _, _ => True
  end.

(** [text] is [name] in any case *)
Definition any_case (name : list Z) (text : list Z) : Prop := map lower text = map lower name.
Definition letter (c : Z) : bool := ((65 <=? c) && (c <=? 90)) || ((97 <=? c) && (c <=? 122)).
Definition no_letter (next : list Z) : Prop := letter (peek next) = false.
Definition no_space (next : list Z) : Prop := space (peek next) = false.
Definition spaces (l : list Z) : Prop := Forall (fun c => space c = true) l.
(** the number of digits and the limits of the numbers that do not matter *)
Definition other_range (c : Z) : option (nat * Z * Z) :=
  if c =? ch "j" then Some (3%nat, 1, 366) else if (c =? ch "U") || (c =? ch "W") || (c =? ch "V") then Some (2%nat, 0, 53)
  else if c =? ch "w" then Some (1%nat, 0, 6) else if c =? ch "u" then Some (1%nat, 1, 7) else if c =? ch "g" then Some (2%nat, 0, 99) else None.
(** a part of the format before the text [next]: names are not followed by letters, spaces not by spaces *)
Definition part_ok (m : moment) (t : tok) (next : list Z) : Prop :=
  match t with
  | Lit c => 0 < c < 256 /\ space c = false /\ c <> ch "%"
  | Percent => True
  | Blank w ws => space w = true /\ spaces ws /\ no_space next
  | BlankN w ws => (w = ch "n" \/ w = ch "t") /\ spaces ws /\ no_space next
  | Num Year2 => 1969 <= year m <= 2068
  | Num _ => True
  | MonthName c x => (c = ch "b" \/ c = ch "B" \/ c = ch "h") /\ no_letter next /\ exists names n, (names = mon \/ names = abmon) /\ nth_error names (Z.to_nat (month m - 1)) = Some n /\ any_case n x
  | DayName c x => (c = ch "a" \/ c = ch "A") /\ no_letter next /\ exists n, (In n day \/ In n abday) /\ any_case n x
  | AmPm x => exists n, nth_error am_pm (Z.to_nat (hour m / 12)) = Some n /\ any_case n x
  | Other c k v => exists a b, other_range c = Some (k, a, b) /\ a <= v <= b
  | Group _ _ => False
  end.
Fixpoint parts_ok (m : moment) (ts : list tok) (tail : list Z) : Prop :=
  match ts with [] => True | t :: r => part_ok m t (texts m r ++ tail) /\ parts_ok m r tail end.

(** what the parts of a format tell; the hour of a 12-hour clock must come before AM or PM *)
Inductive hours := NoHour | Half | Full.
Record known := { kY : bool; kM : bool; kD : bool; kh : hours; kmin : bool; ksec : bool }.
Definition nothing : known := {| kY := false; kM := false; kD := false; kh := NoHour; kmin := false; ksec := false |}.
Definition learn (t : tok) (k : known) : option known :=
  match t with
  | Num Year | Num Year2 | Num Century => Some {| kY := true; kM := kM k; kD := kD k; kh := kh k; kmin := kmin k; ksec := ksec k |}
  | Num Month | MonthName _ _ => Some {| kY := kY k; kM := true; kD := kD k; kh := kh k; kmin := kmin k; ksec := ksec k |}
  | Num Day | Num DayE => Some {| kY := kY k; kM := kM k; kD := true; kh := kh k; kmin := kmin k; ksec := ksec k |}
  | Num Hour | Num HourK => Some {| kY := kY k; kM := kM k; kD := kD k; kh := Full; kmin := kmin k; ksec := ksec k |}
  | Num Hour12 | Num Hour12L => Some {| kY := kY k; kM := kM k; kD := kD k; kh := Half; kmin := kmin k; ksec := ksec k |}
  | AmPm _ => match kh k with Half => Some {| kY := kY k; kM := kM k; kD := kD k; kh := Full; kmin := kmin k; ksec := ksec k |} | _ => None end
  | Num Minute => Some {| kY := kY k; kM := kM k; kD := kD k; kh := kh k; kmin := true; ksec := ksec k |}
  | Num Second => Some {| kY := kY k; kM := kM k; kD := kD k; kh := kh k; kmin := kmin k; ksec := true |}
  | _ => Some k
  end.
Fixpoint learns (ts : list tok) (k : known) : option known :=
  match ts with [] => Some k | t :: r => match learn t k with Some k' => learns r k' | None => None end end.
(** the date is told; what is not told of the time is zero *)
Definition complete (m : moment) (k : known) : Prop :=
  kY k = true /\ kM k = true /\ kD k = true /\ (kh k = Full \/ (kh k = NoHour /\ hour m = 0)) /\ (kmin k = true \/ minute m = 0) /\ (ksec k = true \/ second m = 0).
(** a format that tells a moment, with its parts, before the text [tail] *)
Definition tells (ts : list tok) (m : moment) (tail : list Z) : Prop :=
  Forall (groups_ok 2) ts /\ parts_ok m (flat_map flat ts) tail /\ exists k, learns (flat_map flat ts) nothing = Some k /\ complete m k.
(** the format contains the conversion %G *)
Fixpoint week_year (fmt : list Z) : bool :=
  match fmt with
  | [] => false
  | c :: f1 =>
      if c =? ch "%" then
        match f1 with
        | [] => false
        | d :: f2 => if (d =? ch "E") || (d =? ch "O") then match f2 with [] => false | e :: f3 => (e =? ch "G") || week_year f3 end else (d =? ch "G") || week_year f2
        end
      else week_year f1
  end.
Definition bytes (l : list Z) : Prop := Forall (fun c => 0 <= c < 256) l.
