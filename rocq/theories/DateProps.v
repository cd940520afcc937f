(** C27: dates and times from text. *)
From Verif Require Import Base Mem MemLemmas DateModel DateSpec DateProofs.
Local Open Scope Z_scope.

(** ** The calendar *)
Theorem C27_calendar : forall y m d, valid_date y m d -> YearToEpochNano y m d = Some (nanos y m d).
Proof. intros y m d (Hy & Hm & Hd). pose proof (month_days_31 y m). apply nanos_ok; lia. Qed.
Print Assumptions C27_calendar.

Theorem C27_calendar_range : forall y m d, ~ (1970 <= y <= 2099 /\ 1 <= m <= 12 /\ 1 <= d <= 31) -> YearToEpochNano y m d = Some (-1).
Proof. exact nanos_bad. Qed.
Print Assumptions C27_calendar_range.

(** ** Well-formed text: blanks, the date or time, padding; no warning *)
Theorem C27_date : forall sp b y m d pad, blank sp -> padding pad -> valid_date y m d ->
  ParseDate (sp ++ date_text b y m d ++ pad) None = Some (nanos y m d, None).
Proof. intros. now apply ParseDate_ok. Qed.
Print Assumptions C27_date.

Theorem C27_time : forall sp c pad, blank sp -> padding pad -> clock_shape c -> clock_ok c ->
  exists e, ParseTime (sp ++ clock_text c ++ pad) None = Some (clock_nanos c, e) /\ (has_seconds c \/ pad = [] -> e = None).
Proof. intros. now apply ParseTime_ok. Qed.
Print Assumptions C27_time.

Theorem C27_datetime : forall sp b y m d t c pad, blank sp -> padding pad -> valid_date y m d -> clock_shape c -> clock_ok c ->
  exists e, ParseDateTime (sp ++ date_text b y m d ++ delim t :: clock_text c ++ pad) None = Some (nanos y m d + clock_nanos c, e) /\ (has_seconds c \/ pad = [] -> e = None).
Proof. intros. now apply ParseDateTime_ok. Qed.
Print Assumptions C27_datetime.

Theorem C27_datetime_midnight : forall sp b y m d pad, blank sp -> padding pad -> valid_date y m d ->
  exists e, ParseDateTime (sp ++ date_text b y m d ++ pad) None = Some (nanos y m d, e) /\ (pad = [] -> e = None).
Proof. intros. now apply ParseDateTime_date. Qed.
Print Assumptions C27_datetime_midnight.

Example C27_text_example :
  date_text true 2020 2 29 = [50;48;50;48;45;48;50;45;50;57] /\ valid_date 2020 2 29 /\ blank [32; 9] /\ padding [32; 0; 0] /\ nanos 2020 2 29 = 1582934400 * 1000000000 /\
  ParseDate ([32; 9] ++ [50;48;50;48;45;48;50;45;50;57] ++ [32; 0; 0]) None = Some (1582934400000000000, None) /\
  clock_text (HMSF 12 34 56 3 789) = [49;50;58;51;52;58;53;54;46;55;56;57] /\ clock_shape (HMSF 12 34 56 3 789) /\ clock_ok (HMSF 12 34 56 3 789) /\
  ParseTime [49;50;58;51;52;58;53;54;46;55;56;57] None = Some (45296789000000, None) /\
  ParseDateTime ([50;48;50;48;48;50;50;57] ++ [84] ++ [49;50;58;51;52;58;53;54;46;55;56;57] ++ [0]) None = Some (1582979696789000000, None).
Proof.
  split; [vm_compute; reflexivity|]. split; [unfold valid_date; vm_compute; intuition discriminate|].
  split; [intros c [<-|[<-|[]]]; lia|]. split; [exists [32], 2%nat; split; auto; intros c [<-|[]]; lia|].
  do 3 (split; [vm_compute; reflexivity|]). split; [cbn [clock_shape]; unfold two; change (10 ^ Z.of_nat 3) with 1000; lia|].
  split; [cbn [clock_ok]; lia|]. split; vm_compute; reflexivity.
Qed.

(** ** Out of range *)
Theorem C27_date_range : forall sp b y m d pad, blank sp -> padding pad -> 0 <= y < 10000 -> two m -> two d ->
  ~ (1970 <= y <= 2099 /\ 1 <= m <= 12 /\ 1 <= d <= 31) -> ParseDate (sp ++ date_text b y m d ++ pad) None = Some (0, None).
Proof. intros. now apply ParseDate_bad. Qed.
Print Assumptions C27_date_range.

Theorem C27_time_range : forall sp c pad, blank sp -> padding pad -> clock_shape c -> ~ clock_ok c ->
  exists e, ParseTime (sp ++ clock_text c ++ pad) None = Some (0, e).
Proof. intros. now apply ParseTime_bad. Qed.
Print Assumptions C27_time_range.

Theorem C27_datetime_range : forall sp b y m d t c pad, blank sp -> padding pad -> 0 <= y < 10000 -> two m -> two d -> clock_shape c ->
  ~ (1970 <= y <= 2099 /\ 1 <= m <= 12 /\ 1 <= d <= 31) -> exists e, ParseDateTime (sp ++ date_text b y m d ++ delim t :: clock_text c ++ pad) None = Some (0, e).
Proof. intros. now apply ParseDateTime_bad. Qed.
Print Assumptions C27_datetime_range.

Theorem C27_no_digits : forall row, plain row -> no_digit row -> exists e, ParseDate row None = Some (0, e).
Proof. intros. now apply ParseDate_none. Qed.
Print Assumptions C27_no_digits.

Example C27_range_example : ParseDate (date_text true 1969 12 31) None = Some (0, None) /\ ParseDate (date_text false 2100 1 1) None = Some (0, None) /\
  ParseTime (clock_text (HMS 24 0 0)) None = Some (0, None) /\ ~ clock_ok (HMS 24 0 0) /\ plain [110; 97; 110] /\ no_digit [110; 97; 110].
Proof.
  do 3 (split; [vm_compute; reflexivity|]). split; [cbn; lia|]. split; intros c [<-|[<-|[<-|[]]]]; try lia; reflexivity.
Qed.

(** ** Whatever the text: no read outside it; the result of ParseDate is 0 or the midnight of a day *)
Theorem C27_date_safe : forall row, plain row -> exists t e, ParseDate row None = Some (t, e) /\
  (t = 0 \/ exists y m d, 1970 <= y <= 2099 /\ 1 <= m <= 12 /\ 1 <= d <= 31 /\ t = nanos y m d).
Proof. intros. now apply ParseDate_total. Qed.
Print Assumptions C27_date_safe.

Theorem C27_time_safe : forall row, plain row -> exists t e, ParseTime row None = Some (t, e) /\ 0 <= t.
Proof. intros. now apply ParseTime_total. Qed.
Print Assumptions C27_time_safe.

Theorem C27_datetime_safe : forall row, plain row -> exists t e, ParseDateTime row None = Some (t, e) /\ 0 <= t.
Proof. intros. now apply ParseDateTime_total. Qed.
Print Assumptions C27_datetime_safe.

(** every row of an array; the warning names the first row with an error and its position there *)
Theorem C27_rows : forall parse rows, parse = ParseDate \/ parse = ParseTime \/ parse = ParseDateTime -> (forall row, In row rows -> plain row) ->
  exists ts err, parse_rows parse rows 0 None = Some (ts, err) /\ Forall2 (fun row t => exists e, parse row None = Some (t, e)) rows ts /\
    (forall j p, err = Some (j, p) <-> exists row t, nth_error rows j = Some row /\ parse row None = Some (t, Some p) /\
      forall k row', (k < j)%nat -> nth_error rows k = Some row' -> exists t', parse row' None = Some (t', None)).
Proof. exact parse_rows_all. Qed.
Print Assumptions C27_rows.

Example C27_rows_example : parse_rows ParseDate [date_text true 1970 1 2; [120]; []; date_text false 2000 1 1 ++ [33]] 0 None =
  Some ([86400000000000; 0; 0; 946684800000000000], Some (1%nat, 0)).
Proof. vm_compute. reflexivity. Qed.

(** ** Strptime, after the fields have been read *)
Theorem C27_strptime_partial : forall row t stop c, nth_error (row ++ [0]) (Z.to_nat stop) = Some c -> 0 <= stop -> c <> 46 -> tm_year t <> 0 ->
  valid_date (tm_year t + 1900) (tm_mon t + 1) (tm_mday t) -> 0 <= tm_hour t -> 0 <= tm_min t -> 0 <= tm_sec t ->
  strptime_row row (Some (t, stop)) = Some (nanos (tm_year t + 1900) (tm_mon t + 1) (tm_mday t) + 1000000000 * (tm_hour t * 3600 + tm_min t * 60 + tm_sec t)).
Proof. exact strptime_whole. Qed.
Print Assumptions C27_strptime_partial.

Theorem C27_strptime_safe : forall row t stop, 0 <= stop <= Z.of_nat (length row) -> exists r, strptime_row row (Some (t, stop)) = Some r /\ 0 <= r.
Proof. exact strptime_total. Qed.
Print Assumptions C27_strptime_safe.

Example C27_strptime_example : strptime_row (repeat 48 8) (Some ({| tm_year := 70; tm_mon := 0; tm_mday := 2; tm_hour := 1; tm_min := 0; tm_sec := 0 |}, 8)) = Some 90000000000000.
Proof. vm_compute. reflexivity. Qed.

(** a date before 1970 with a time of day is not 0 but the time less a nanosecond *)
Theorem C27_strptime_old_refuted : exists row t stop, 0 <= stop <= Z.of_nat (length row) /\ tm_year t + 1900 < 1970 /\ strptime_row row (Some (t, stop)) = Some 3599999999999.
Proof. exists [48], {| tm_year := 60; tm_mon := 0; tm_mday := 2; tm_hour := 1; tm_min := 0; tm_sec := 0 |}, 1. repeat split; cbn; lia. Qed.
Print Assumptions C27_strptime_old_refuted.

(** ** What is accepted although it is not a date or time *)
Theorem C27_impossible_day_refuted : exists y m d, ~ valid_date y m d /\ ParseDate (date_text true y m d) None = Some (nanos 2021 3 3, None).
Proof. exists 2021, 2, 31. split; [unfold valid_date; vm_compute; intuition congruence|vm_compute; reflexivity]. Qed.
Print Assumptions C27_impossible_day_refuted.

(** an hour of 24 or more: the date alone, not 0 *)
Theorem C27_bad_clock_refuted : exists y m d c, valid_date y m d /\ clock_shape c /\ ~ clock_ok c /\
  ParseDateTime (date_text true y m d ++ delim true :: clock_text c) None = Some (nanos y m d, None) /\ nanos y m d <> 0.
Proof.
  exists 2020, 1, 1, (HMS 25 0 0). split; [unfold valid_date; vm_compute; intuition discriminate|]. split; [cbn; unfold two; lia|]. split; [cbn; lia|].
  split; [vm_compute; reflexivity|vm_compute; discriminate].
Qed.
Print Assumptions C27_bad_clock_refuted.

(** the width of the array changes the value of the text "12" *)
Theorem C27_width_refuted : exists text pad, padding pad /\ ParseTime text None = Some (0, None) /\ exists t e, ParseTime (text ++ pad) None = Some (t, e) /\ t <> 0.
Proof.
  exists [49; 50], [0]. split; [exists [], 1%nat; split; auto; intros c []|]. split; [vm_compute; reflexivity|]. do 2 eexists. split; [vm_compute; reflexivity|discriminate].
Qed.
Print Assumptions C27_width_refuted.

(** a warning for a well-formed time without seconds in a wider array *)
Theorem C27_warning_refuted : exists c pad p, padding pad /\ clock_shape c /\ clock_ok c /\ ParseTime (clock_text c ++ pad) None = Some (clock_nanos c, Some p).
Proof.
  exists (HM 12 30), [0], 5. split; [exists [], 1%nat; split; auto; intros c []|]. split; [cbn; unfold two; lia|]. split; [cbn; lia|]. vm_compute. reflexivity.
Qed.
Print Assumptions C27_warning_refuted.

(** isspace on a character outside unsigned char *)
Theorem C27_isspace_refuted : exists row, ParseDate row None = None.
Proof. exists [256]. vm_compute. reflexivity. Qed.
Print Assumptions C27_isspace_refuted.
