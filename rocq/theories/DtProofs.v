(** Proofs about the functions that read times from texts. *)
From Coq Require Import Reals.
From Verif Require Import Base Mem MemLemmas AllModel AllSpec EaModel EaSpec Ea2Proofs DateModel DateSpec DateProofs.
From Verif Require StrpModel StrpSpec Strp3Proofs SortModel All4Proofs All3Proofs.
From Verif Require SrSpec HashProofs.
From Verif Require Import DtModel DtSpec.
Local Open Scope Z_scope.

Lemma four_word c : 0 <= c < 2 ^ 32 -> SortModel.le_word (four c) = c.
Proof.
  intros H. unfold four. cbn [SortModel.le_word]. pose proof (Z.div_mod c 256 ltac:(lia)) as E1. pose proof (Z.div_mod (c / 256) 256 ltac:(lia)) as E2.
  pose proof (Z.div_mod (c / 65536) 256 ltac:(lia)) as E3. rewrite Z.div_div in E2, E3 by lia. change (256 * 256) with 65536 in E2. change (65536 * 256) with 16777216 in E3. lia.
Qed.
Lemma words_four s : Forall (fun c => 0 <= c < 2 ^ 32) s -> as_words (flat_map four s) = s.
Proof. induction 1 as [|c s H _ IH]; auto. change (flat_map four (c :: s)) with (four c ++ flat_map four s). change (as_words (four c ++ flat_map four s)) with (SortModel.le_word (four c) :: as_words (flat_map four s)). now rewrite four_word, IH. Qed.
Lemma holds_chars d s item : d = 18 \/ d = 19 -> holds d s item -> chars_of d item = s.
Proof.
  intros [-> | ->]; unfold holds, chars_of; cbn [Z.eqb Pos.eqb]; intros (-> & H).
  - rewrite <- (map_id s) at 2. apply map_ext_in. intros c Hc. rewrite Forall_forall in H. specialize (H c Hc). unfold as_char. destruct (Z.ltb_spec c 128); lia.
  - now apply words_four.
Qed.
Lemma array_read a : text_array a -> read_arg a = Some (arg_vals [] a).
Proof. intros (_ & N & OK & G). apply (read_arg_right [] (a_len a)); auto. lia. Qed.
Lemma text_ok d : d = 18 \/ d = 19 -> is_text d = true.
Proof. intros [-> | ->]; reflexivity. Qed.

(** one row *)
Lemma says_parse p whole s t : says p whole s t -> exists e, parse_of p s None = Some (t, e) /\ (whole = true -> e = None).
Proof.
  destruct p; cbn [says parse_of].
  - intros (sp & c & pad & -> & B & P & CS & CO & W & ->). destruct (ParseTime_ok sp c pad None B P CS CO) as (e & E & H). exists e. split; auto.
  - intros (sp & b & y & m & d & pad & -> & B & P & V & ->). rewrite ParseDate_ok by auto. eauto.
  - intros [(sp & b & y & m & d & u & c & pad & -> & B & P & V & CS & CO & W & ->) | (sp & b & y & m & d & pad & -> & B & P & V & W & ->)].
    + destruct (ParseDateTime_ok sp b y m d u c pad None B P V CS CO) as (e & E & H). exists e. split; auto.
    + destruct (ParseDateTime_date sp b y m d pad None B P V) as (e & E & H). exists e. split; auto.
Qed.
Lemma rows_right parse rows ts (quiet : Prop) : Forall2 (fun row t => exists e, parse row None = Some (t, e) /\ (quiet -> e = None)) rows ts ->
  forall i err, exists err', parse_rows parse rows i err = Some (ts, err') /\ (quiet -> err' = err).
Proof.
  induction 1 as [|row t rows ts (e & E & Q) _ IH]; intros i err; cbn [parse_rows]; [eauto|]. rewrite E. destruct (IH (S i) (match err, e with None, Some p => Some (i, p) | _, _ => err end)) as (err' & -> & Q').
  exists err'. split; auto. intros q. rewrite (Q' q), (Q q). now destruct err.
Qed.
Lemma texts_call : forall p whole a ts, text_array a -> Forall2 (fun item t => exists s, holds (a_dtype a) s item /\ says p whole s t) (arg_vals [] a) ts ->
  exists w, StringToNanosCall p a = Done (ts, w) /\ (whole = true -> w = None).
Proof.
  intros p whole a ts T H. unfold StringToNanosCall. rewrite (text_ok _ (proj1 T)), (array_read a T). cbn [undef obind].
  destruct (rows_right (parse_of p) (map (chars_of (a_dtype a)) (arg_vals [] a)) ts (whole = true)) with (i := 0%nat) (err := @None (nat * Z)) as (w & E & Q).
  - revert H. generalize (arg_vals [] a). intros l H. induction H as [|item t l ts (s & Hs & St) _ IH]; cbn [map]; constructor; auto.
    rewrite (holds_chars _ s) by (auto; apply T). now apply says_parse.
  - rewrite E. exists w. split; auto.
Qed.
Lemma safe_call : forall p a, text_array a -> Forall (simple_item (a_dtype a)) (arg_vals [] a) ->
  exists ts w, StringToNanosCall p a = Done (ts, w) /\ Z.of_nat (length ts) = a_len a /\ Forall (fun t => 0 <= t) ts.
Proof.
  intros p a T H. unfold StringToNanosCall. rewrite (text_ok _ (proj1 T)), (array_read a T). cbn [undef obind].
  assert (PL : forall row, In row (map (chars_of (a_dtype a)) (arg_vals [] a)) -> plain row).
  { intros row Hr. apply in_map_iff in Hr as (item & <- & Hi). rewrite Forall_forall in H. destruct (H item Hi) as (s & Hs & B). rewrite (holds_chars _ s) by (auto; apply T).
    intros c Hc. rewrite Forall_forall in B. specialize (B c Hc). unfold holds in Hs. destruct (a_dtype a =? 18); destruct Hs as (_ & R); rewrite Forall_forall in R; specialize (R c Hc); lia. }
  destruct (parse_rows_all (parse_of p) (map (chars_of (a_dtype a)) (arg_vals [] a))) as (ts & w & E & F & _); [destruct p; auto|auto|].
  rewrite E. exists ts, w. split; [reflexivity|]. split.
  - apply HashProofs.Forall2_len in F. rewrite map_length in F. rewrite <- F. rewrite (arg_vals_length [] (a_len a)) by apply T. destruct T as (_ & N & _). lia.
  - clear E. revert PL F. generalize (map (chars_of (a_dtype a)) (arg_vals [] a)). intros rows PL F. induction F as [|row t rows ts (e & E) _ IH]; constructor.
    + assert (P : plain row) by (apply PL; now left). destruct p; cbn [parse_of] in E.
      * destruct (ParseTime_total row None P) as (t' & e' & E' & B). rewrite E' in E. injection E as -> _. auto.
      * destruct (ParseDate_total row None P) as (t' & e' & E' & [B | (y & m & d & Hy & Hm & Hd & B)]); rewrite E' in E; injection E as <- _; [lia|]. subst t'. unfold nanos.
        apply Z.mul_nonneg_nonneg; [|lia]. assert (SN : forall f, (forall z, 0 <= f z) -> forall k z, 0 <= sum_from f z k) by (intros f F0; induction k as [|k IHk]; intros z; cbn [sum_from]; [lia|specialize (F0 z); specialize (IHk (z + 1)); lia]).
        unfold epoch_day. assert (0 <= sum_from year_days 1970 (Z.to_nat (y - 1970))) by (apply SN; intros z; unfold year_days; destruct (leap z); lia).
        assert (0 <= sum_from (month_days y) 1 (Z.to_nat (m - 1))); [|lia]. apply SN. intros z. unfold month_days. destruct (z =? 2); [destruct (leap y); lia|]. destruct (_ || _); lia.
      * destruct (ParseDateTime_total row None P) as (t' & e' & E' & B). rewrite E' in E. injection E as -> _. auto.
    + apply IH. intros r Hr. apply PL. now right.
Qed.
Lemma texts_refused : forall p a, a_dtype a <> 18 -> a_dtype a <> 19 -> StringToNanosCall p a = Error.
Proof. intros p a H1 H2. unfold StringToNanosCall, is_text. now rewrite (proj2 (Z.eqb_neq _ _) H1), (proj2 (Z.eqb_neq _ _) H2). Qed.

(** strptime *)
Lemma each_right {X Y} (f : X -> outcome Y) l r : Forall2 (fun x y => f x = Done y) l r -> each f l = Done r.
Proof. induction 1 as [|x y l r E _ IH]; auto. cbn [each]. now rewrite E, IH. Qed.
Lemma format_call : forall a toks ts, text_array a -> Forall2 (fun item t => exists s, holds (a_dtype a) s item /\ says_in toks s t) (arg_vals [] a) ts ->
  StrptimeCall a (StrpSpec.fmts toks) = Done ts.
Proof.
  intros a toks ts T H. unfold StrptimeCall. rewrite (text_ok _ (proj1 T)), (array_read a T). cbn [undef obind]. apply each_right.
  revert H. generalize (arg_vals [] a). intros l H. induction H as [|item t l ts (s & Hi & m & tail & -> & R & TL & B & N & ->) _ IH]; constructor; auto.
  rewrite (holds_chars _ _ _ (proj1 T) Hi). now rewrite Strp3Proofs.row_ok.
Qed.
Lemma format_safe : forall a fmt, text_array a -> StrpSpec.week_year (StrpModel.before_zero fmt) = false ->
  exists ts, StrptimeCall a fmt = Done ts /\ Z.of_nat (length ts) = a_len a /\ Forall (fun t => 0 <= t) ts.
Proof.
  intros a fmt T W. unfold StrptimeCall. rewrite (text_ok _ (proj1 T)), (array_read a T). cbn [undef obind].
  assert (L : Z.of_nat (length (arg_vals [] a)) = a_len a) by (rewrite (arg_vals_length [] (a_len a)) by apply T; destruct T as (_ & N & _); lia).
  assert (E : forall l, exists ts, each (fun item => undef (StrpModel.StrptimeToNanos fmt (chars_of (a_dtype a) item))) l = Done ts /\ length ts = length l /\ Forall (fun t => 0 <= t) ts).
  { induction l as [|item l (ts & E & LT & P)]; [exists []; repeat split; auto|]. destruct (Strp3Proofs.nanos_safe fmt (chars_of (a_dtype a) item) W) as (r & ER & B).
    exists (r :: ts). cbn [each]. rewrite ER. cbn [undef]. rewrite E. cbn. repeat split; auto. }
  destruct (E (arg_vals [] a)) as (ts & E1 & LT & P). exists ts. rewrite E1. repeat split; auto. lia.
Qed.
Lemma format_refused : forall a fmt, a_dtype a <> 18 -> a_dtype a <> 19 -> StrptimeCall a fmt = Error.
Proof. intros a fmt H1 H2. unfold StrptimeCall, is_text. now rewrite (proj2 (Z.eqb_neq _ _) H1), (proj2 (Z.eqb_neq _ _) H2). Qed.
