(** Properties C119 and C120: times read from arrays of texts. *)
From Verif Require Import Base Mem AllModel EaModel EaSpec DateSpec.
From Verif Require SrSpec StrpModel StrpSpec.
From Verif Require Import DtModel DtSpec DtProofs.
Local Open Scope Z_scope.

(** ** C119.  Missing: arrays with gaps, characters from 128 on (byte strings) and from 256 on (unicode strings), impossible days (C27). *)
Theorem C119_texts_partial :
  forall p whole a ts, text_array a -> Forall2 (fun item t => exists s, holds (a_dtype a) s item /\ says p whole s t) (arg_vals [] a) ts ->
  exists w, StringToNanosCall p a = Done (ts, w) /\ (whole = true -> w = None).
Proof. exact texts_call. Qed.
Print Assumptions C119_texts_partial.
(** whatever the texts are *)
Theorem C119_safe_partial :
  forall p a, text_array a -> Forall (simple_item (a_dtype a)) (arg_vals [] a) ->
  exists ts w, StringToNanosCall p a = Done (ts, w) /\ Z.of_nat (length ts) = a_len a /\ Forall (fun t => 0 <= t) ts.
Proof. exact safe_call. Qed.
Print Assumptions C119_safe_partial.
Theorem C119_refused : forall p a, a_dtype a <> 18 -> a_dtype a <> 19 -> StringToNanosCall p a = Error.
Proof. exact texts_refused. Qed.
Print Assumptions C119_refused.

(** "19700102" and "00:00:01" in both kinds of arrays *)
Definition some_date : list Z := [49; 57; 55; 48; 48; 49; 48; 50].
Definition some_clock : list Z := [48; 48; 58; 48; 48; 58; 48; 49].
Definition some_dates : arg (list Z) := mkArg 18 [[0]; some_date; some_date] 1 1 2.
Definition some_clocks : arg (list Z) := mkArg 19 [flat_map four some_clock] 0 1 1.
Lemma small l : forallb (fun c => (0 <=? c) && (c <? 128)) l = true -> Forall (fun c => 0 <= c < 128) l.
Proof. intros H. rewrite forallb_forall in H. apply Forall_forall. intros c Hc. specialize (H c Hc). lia. Qed.
Example C119_example :
  text_array some_dates /\ Forall2 (fun item t => exists s, holds 18 s item /\ says Dates true s t) (arg_vals [] some_dates) [86400000000000; 86400000000000] /\
  StringToNanosCall Dates some_dates = Done ([86400000000000; 86400000000000], None) /\
  text_array some_clocks /\ Forall2 (fun item t => exists s, holds 19 s item /\ says Times true s t) (arg_vals [] some_clocks) [1000000000] /\
  StringToNanosCall Times some_clocks = Done ([1000000000], None) /\
  StringToNanosCall DateTimes (mkArg 18 [some_date ++ 84 :: some_clock; [120]] 0 1 2) = Done ([86401000000000; 0], Some (1%nat, 0)).
Proof.
  assert (OK : forall d l start n, (d = 18 \/ d = 19) -> 0 <= start -> 0 <= n < 2 ^ 63 -> start + n <= Z.of_nat (length l) -> text_array (mkArg d l start 1 n)).
  { intros d l start n D S N B. split; [exact D|]. split; [exact N|]. split; [|left; reflexivity]. unfold arg_ok. cbn [a_len a_start a_mem a_step]. split; [lia|]. split; [lia|intros; lia]. }
  split; [apply OK; cbn [length]; lia|]. split; [|split; [vm_compute; reflexivity|split; [apply OK; cbn [length]; lia|split; [|split; vm_compute; reflexivity]]]].
  - change (arg_vals [] some_dates) with [some_date; some_date].
    assert (A : exists s, holds 18 s some_date /\ says Dates true s 86400000000000).
    { exists some_date. split; [split; [reflexivity|apply small; reflexivity]|]. exists [], false, 1970, 1, 2, []. split; [reflexivity|]. split; [intros c []|].
      split; [exists [], 0%nat; split; [reflexivity|intros c []]|]. split; [unfold valid_date; vm_compute; intuition discriminate|reflexivity]. }
    repeat constructor; exact A.
  - change (arg_vals [] some_clocks) with [flat_map four some_clock]. constructor; [|constructor]. exists some_clock. split.
    + split; [reflexivity|]. eapply Forall_impl; [|apply small; reflexivity]. cbn beta. lia.
    + exists [], (HMS 0 0 1), []. split; [reflexivity|]. split; [intros c []|]. split; [exists [], 0%nat; split; [reflexivity|intros c []]|].
      split; [cbn; unfold two; lia|]. split; [cbn; lia|]. split; [intros _; now right|reflexivity].
Qed.
(** every second text: the text between them is read *)
Theorem C119_gaps_refuted : exists a ts w, a_dtype a = 18 /\ arg_ok 2 a /\ arg_vals [] a = [some_date; some_date] /\ StringToNanosCall Dates a = Done (ts, w) /\
  ts = [86400000000000; 0].
Proof.
  exists (mkArg 18 [some_date; [120]; some_date] 0 2 2). do 2 eexists. split; [reflexivity|]. split; [|repeat split; vm_compute; reflexivity].
  unfold arg_ok. cbn [a_len a_start a_mem a_step length]. split; [lia|]. split; [lia|intros; lia].
Qed.
Print Assumptions C119_gaps_refuted.
(** isspace is called with a negative number, or with one above 255 *)
Theorem C119_characters_refuted : exists a b, text_array a /\ a_dtype a = 18 /\ arg_vals [] a = [[195; 169]] /\ StringToNanosCall Dates a = Undefined /\
  text_array b /\ a_dtype b = 19 /\ arg_vals [] b = [four 8364] /\ StringToNanosCall Dates b = Undefined.
Proof.
  exists (mkArg 18 [[195; 169]] 0 1 1), (mkArg 19 [four 8364] 0 1 1). split; [|split; [reflexivity|split; [reflexivity|split; [vm_compute; reflexivity|split; [|repeat split; vm_compute; reflexivity]]]]].
  all: split; [cbn; lia|split; [cbn; lia|split; [|left; reflexivity]]]; unfold arg_ok; cbn [a_len a_start a_mem a_step length]; split; [lia|split; [lia|intros; lia]].
Qed.
Print Assumptions C119_characters_refuted.

(** ** C120.  Missing: arrays with gaps, formats with %G (C88). *)
Theorem C120_format_partial :
  forall a toks ts, text_array a -> Forall2 (fun item t => exists s, holds (a_dtype a) s item /\ says_in toks s t) (arg_vals [] a) ts ->
  StrptimeCall a (StrpSpec.fmts toks) = Done ts.
Proof. exact format_call. Qed.
Print Assumptions C120_format_partial.
Theorem C120_safe_partial :
  forall a fmt, text_array a -> StrpSpec.week_year (StrpModel.before_zero fmt) = false ->
  exists ts, StrptimeCall a fmt = Done ts /\ Z.of_nat (length ts) = a_len a /\ Forall (fun t => 0 <= t) ts.
Proof. exact format_safe. Qed.
Print Assumptions C120_safe_partial.
Theorem C120_refused : forall a fmt, a_dtype a <> 18 -> a_dtype a <> 19 -> StrptimeCall a fmt = Error.
Proof. exact format_refused. Qed.
Print Assumptions C120_refused.
(** "%Y%m%d" *)
Definition some_format : list StrpSpec.tok := [StrpSpec.Num StrpSpec.Year; StrpSpec.Num StrpSpec.Month; StrpSpec.Num StrpSpec.Day].
Definition some_unicode : arg (list Z) := mkArg 19 [flat_map four some_date] 0 1 1.
Example C120_example : text_array some_unicode /\ StrpSpec.fmts some_format = [37; 89; 37; 109; 37; 100] /\
  Forall2 (fun item t => exists s, holds 19 s item /\ says_in some_format s t) (arg_vals [] some_unicode) [86400000000000] /\
  StrptimeCall some_unicode [37; 89; 37; 109; 37; 100] = Done [86400000000000].
Proof.
  split; [|split; [reflexivity|split; [|vm_compute; reflexivity]]].
  - split; [cbn; lia|]. split; [cbn; lia|]. split; [|left; reflexivity]. unfold arg_ok, some_unicode. cbn [a_len a_start a_mem a_step length]. split; [lia|split; [lia|intros; lia]].
  - change (arg_vals [] some_unicode) with [flat_map four some_date]. constructor; [|constructor]. exists some_date. split.
    + split; [reflexivity|]. eapply Forall_impl; [|apply small; reflexivity]. cbn beta. lia.
    + exists {| StrpSpec.year := 1970; StrpSpec.month := 1; StrpSpec.mday := 2; StrpSpec.hour := 0; StrpSpec.minute := 0; StrpSpec.second := 0 |}, []. split; [reflexivity|].
      split; [unfold StrpSpec.in_range, valid_date; cbn; lia|]. split; [|split; [constructor|split; [discriminate|reflexivity]]].
      split; [repeat constructor|]. split; [cbn; auto|]. eexists. split; [reflexivity|]. unfold StrpSpec.complete. cbn. intuition.
Qed.
(** every second text *)
Theorem C120_gaps_refuted : exists a ts, a_dtype a = 18 /\ arg_ok 2 a /\ arg_vals [] a = [some_date; some_date] /\ StrptimeCall a [37; 89; 37; 109; 37; 100] = Done ts /\
  ts = [86400000000000; 0].
Proof.
  exists (mkArg 18 [some_date; [120]; some_date] 0 2 2). eexists. split; [reflexivity|]. split; [|repeat split; vm_compute; reflexivity].
  unfold arg_ok. cbn [a_len a_start a_mem a_step length]. split; [lia|]. split; [lia|intros; lia].
Qed.
Print Assumptions C120_gaps_refuted.
(** a format with %G reads after the end of the text *)
Theorem C120_week_refuted : exists a fmt, text_array a /\ StrptimeCall a fmt = Undefined.
Proof.
  exists (mkArg 18 [[50; 48; 50; 48]] 0 1 1), [37; 89; 37; 71]. split; [|vm_compute; reflexivity].
  split; [cbn; lia|]. split; [cbn; lia|]. split; [|left; reflexivity]. unfold arg_ok. cbn [a_len a_start a_mem a_step length]. split; [lia|split; [lia|intros; lia]].
Qed.
Print Assumptions C120_week_refuted.
