(** C88: times from texts by a format. *)
From Coq Require Import Ascii String.
From Verif Require Import Base Mem MemLemmas DateModel DateSpec StrpModel StrpSpec StrpProofs Strp2Proofs Strp3Proofs.
Import ListNotations.
Local Open Scope Z_scope.

(** the text that a format makes of a moment, whatever comes after it but a period *)
Theorem C88_parse_partial : forall m ts tail, in_range m -> tells ts m (before_zero tail) -> bytes tail -> peek tail <> ch "." ->
  StrptimeToNanos (fmts ts) (texts m ts ++ tail) = Some (nanos (year m) (month m) (mday m) + time_of_day m).
Proof. exact row_ok. Qed.
Print Assumptions C88_parse_partial.
(** with a fraction of a second *)
Theorem C88_fraction_partial : forall m ts k f rest, in_range m -> tells ts m (before_zero (ch "." :: digits k f ++ rest)) -> bytes rest -> (1 <= k <= 9)%nat -> 0 <= f < 10 ^ Z.of_nat k ->
  k = 9%nat \/ is_digit (peek rest) = false ->
  StrptimeToNanos (fmts ts) (texts m ts ++ ch "." :: digits k f ++ rest) = Some (nanos (year m) (month m) (mday m) + time_of_day m + f * 10 ^ (9 - Z.of_nat k)).
Proof. exact fraction_ok. Qed.
Print Assumptions C88_fraction_partial.
(** any text and any format without %G: no read after the end of the text, and no negative number *)
Theorem C88_safe_partial : forall fmt row, week_year (before_zero fmt) = false -> exists r, StrptimeToNanos fmt row = Some r /\ 0 <= r.
Proof. exact nanos_safe. Qed.
Print Assumptions C88_safe_partial.

Definition some_moment : moment := {| year := 2019; month := 5; mday := 7; hour := 15; minute := 4; second := 0 |}.
Example C88_example : let ts := [DayName (ch "a") (str "tUE"); Lit (ch ","); Blank (ch " ") []; MonthName (ch "b") (str "MAY"); Blank (ch " ") (str "  "); Num Day; Num Century; Percent;
      Group (ch "r") [Num Hour12; Lit (ch ":"); Num Minute; Lit (ch ":"); Num Second; Blank (ch " ") (str " "); AmPm (str "pM")]] in
  in_range some_moment /\ tells ts some_moment [] /\ fmts ts = str "%a, %b %d%C%y%%%r" /\ texts some_moment ts = str "tUE,MAY  072019%03:04:00 pM".
Proof.
  cbn zeta. split; [|split; [|split; vm_compute; reflexivity]].
  - unfold in_range, valid_date. cbn. lia.
  - split; [repeat (apply Forall_cons; [cbn; auto|]); [split; [vm_compute; reflexivity|repeat constructor]|apply Forall_nil]|]. split.
    + cbn [flat_map flat app parts_ok]. repeat (split; [|idtac]); try exact I.
      * cbn. auto.
      * reflexivity.
      * exists (str "Tue"). split; [right; cbn; tauto|reflexivity].
      * reflexivity.
      * reflexivity.
      * reflexivity.
      * discriminate.
      * reflexivity.
      * constructor.
      * reflexivity.
      * cbn. auto.
      * reflexivity.
      * exists mon, (str "May"). split; [auto|split; reflexivity].
      * reflexivity.
      * repeat constructor.
      * reflexivity.
      * reflexivity.
      * reflexivity.
      * reflexivity.
      * discriminate.
      * reflexivity.
      * reflexivity.
      * reflexivity.
      * discriminate.
      * reflexivity.
      * repeat constructor.
      * reflexivity.
      * exists (str "PM"). split; reflexivity.
    + eexists. split; [reflexivity|]. unfold complete. cbn. tauto.
Qed.
Example C88_fraction_example : StrptimeToNanos (str "%F %T") (str "1970-01-02 00:00:01.25 UTC" ++ [0; 0]) = Some (86401000000000 + 250000000).
Proof. vm_compute. reflexivity. Qed.
Example C88_safe_example : week_year (str "%Y%%G%c%z") = false /\ StrptimeToNanos (str "%Y%%G%c%z") (str "19") = Some 0.
Proof. split; vm_compute; reflexivity. Qed.

(** %G goes past the end of a text that has ended *)
Theorem C88_overread_refuted : exists fmt row, StrptimeToNanos fmt row = None.
Proof. exists (str "%Y%G"), (str "2020"). vm_compute. reflexivity. Qed.
Print Assumptions C88_overread_refuted.
(** the offset from UTC is read and dropped; the name of a time zone is not even read *)
Theorem C88_zone_refuted : exists t, StrptimeToNanos (str "%F %T %z") (str "2020-01-02 00:00:00 +0500") = Some t /\ StrptimeToNanos (str "%F %T %z") (str "2020-01-02 00:00:00 +0000") = Some t /\
  StrptimeToNanos (str "%F %T %Z") (str "2020-01-02 00:00:00 EST") = Some t.
Proof. exists (nanos 2020 1 2). split; [|split]; vm_compute; reflexivity. Qed.
Print Assumptions C88_zone_refuted.
(** PM before the hour is forgotten *)
Theorem C88_pm_refuted : exists row t, row = str "1970-01-01 PM 03" /\ StrptimeToNanos (str "%F %p %I") row = Some t /\ t <> 15 * 3600 * 1000000000.
Proof. eexists. exists (3 * 3600 * 1000000000). split; [reflexivity|]. split; [vm_compute; reflexivity|discriminate]. Qed.
Print Assumptions C88_pm_refuted.
(** texts that do not match are not 0: what comes after the format is ignored, and the digits of a month that is too large are left to the day *)
Theorem C88_mismatch_refuted : exists t t', StrptimeToNanos (str "%F") (str "2020-01-02 tomorrow") = Some t /\ t <> 0 /\ StrptimeToNanos (str "%Y%m%d") (str "20204510") = Some t' /\ t' = nanos 2020 4 5.
Proof. exists (nanos 2020 1 2), (nanos 2020 4 5). split; [vm_compute; reflexivity|]. split; [discriminate|]. split; [vm_compute; reflexivity|reflexivity]. Qed.
Print Assumptions C88_mismatch_refuted.
(** other characters that end in the same eight bits are taken for digits *)
Theorem C88_unicode_refuted : exists row, ~ bytes row /\ StrptimeToNanos (str "%F") row = Some (nanos 2020 1 2).
Proof.
  exists (map (fun c => 0x4e00 + c) (str "2020-01-02")). split; [|vm_compute; reflexivity]. intros B. inversion B as [|? ? H _]. vm_compute in H. destruct H as [_ H]. discriminate H.
Qed.
Print Assumptions C88_unicode_refuted.
(** the day of the year does not give the date; days with a leading space, as strftime writes %e, are not read *)
Theorem C88_yday_refuted : exists t, t = nanos 2020 2 29 /\ StrptimeToNanos (str "%Y-%j") (str "2020-060") <> Some t /\
  StrptimeToNanos (str "%b %e %Y") (str "Feb 29 2020") = Some t /\ StrptimeToNanos (str "%b%e %Y") (str "Feb 29 2020") <> Some t.
Proof. eexists. split; [reflexivity|]. split; [vm_compute; discriminate|]. split; [vm_compute; reflexivity|vm_compute; discriminate]. Qed.
Print Assumptions C88_yday_refuted.
(** the 61st and 62nd second of a minute *)
Theorem C88_second_refuted : exists t, StrptimeToNanos (str "%F %T") (str "1970-01-01 00:00:61") = Some t /\ t <> 0.
Proof. exists (61 * 1000000000). split; [vm_compute; reflexivity|discriminate]. Qed.
Print Assumptions C88_second_refuted.
