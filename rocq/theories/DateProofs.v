(** Dates and times from text. *)
From Verif Require Import Base Mem MemLemmas Par DateModel DateSpec.
Local Open Scope Z_scope.

(** ** The calendar *)

Lemma nanos_table :
  forallb (fun y => forallb (fun m => match YearToEpochNano y m 1 with Some r => r =? nanos y m 1 | None => false end) (map Z.of_nat (seq 1 12))) (map Z.of_nat (seq 1970 130)) = true.
Proof. vm_compute. reflexivity. Qed.

Lemma nanos_ok y m d : 1970 <= y <= 2099 -> 1 <= m <= 12 -> 1 <= d <= 31 -> YearToEpochNano y m d = Some (nanos y m d).
Proof.
  intros Hy Hm Hd. pose proof nanos_table as T. rewrite forallb_forall in T. specialize (T y). cbv beta in T. rewrite forallb_forall in T.
  assert (A : In y (map Z.of_nat (seq 1970 130))) by (apply in_map_iff; exists (Z.to_nat y); rewrite in_seq; split; lia).
  assert (B : In m (map Z.of_nat (seq 1 12))) by (apply in_map_iff; exists (Z.to_nat m); rewrite in_seq; split; lia).
  specialize (T A m B). clear A B. unfold YearToEpochNano in *.
  replace ((1970 <=? y) && (y <=? 2099) && (1 <=? m) && (m <=? 12) && (1 <=? d) && (d <=? 31)) with true by lia.
  replace ((1970 <=? y) && (y <=? 2099) && (1 <=? m) && (m <=? 12) && (1 <=? 1) && (1 <=? 31)) with true in T by lia.
  destruct (zrd _ (m - 1)) as [sp|]; [|discriminate]. f_equal. unfold nanos, epoch_day, NANOS_PER_DAY in *. lia.
Qed.

Lemma nanos_bad y m d : ~ (1970 <= y <= 2099 /\ 1 <= m <= 12 /\ 1 <= d <= 31) -> YearToEpochNano y m d = Some (-1).
Proof. intros H. unfold YearToEpochNano. replace (_ && _) with false; auto. lia. Qed.

Lemma month_days_31 y m : month_days y m <= 31.
Proof. unfold month_days. destruct (m =? 2), (leap y), ((m =? 4) || (m =? 6) || (m =? 9) || (m =? 11)); lia. Qed.

Lemma sum_from_nonneg f a k : (forall x, 0 <= f x) -> 0 <= sum_from f a k.
Proof. intros H. revert a. induction k as [|k IH]; intros a; cbn [sum_from]; [lia|]. specialize (IH (a + 1)). specialize (H a). lia. Qed.
Lemma nanos_nonneg y m d : 1 <= d -> 0 <= nanos y m d.
Proof.
  intros Hd. unfold nanos, epoch_day. assert (0 <= sum_from year_days 1970 (Z.to_nat (y - 1970))).
  { apply sum_from_nonneg. intros x. unfold year_days. destruct (leap x); lia. }
  assert (0 <= sum_from (month_days y) 1 (Z.to_nat (m - 1))).
  { apply sum_from_nonneg. intros x. unfold month_days. destruct (x =? 2), (leap y), ((x =? 4) || (x =? 6) || (x =? 9) || (x =? 11)); lia. }
  nia.
Qed.

Lemma YearToEpochNano_total y m d : exists r, YearToEpochNano y m d = Some r /\ (r = -1 \/ 0 <= r /\ 1970 <= y <= 2099 /\ 1 <= m <= 12 /\ 1 <= d <= 31 /\ r = nanos y m d).
Proof.
  destruct (Z.leb_spec 1970 y); [|exists (-1); split; auto; apply nanos_bad; lia]. destruct (Z.leb_spec y 2099); [|exists (-1); split; auto; apply nanos_bad; lia].
  destruct (Z.leb_spec 1 m); [|exists (-1); split; auto; apply nanos_bad; lia]. destruct (Z.leb_spec m 12); [|exists (-1); split; auto; apply nanos_bad; lia].
  destruct (Z.leb_spec 1 d); [|exists (-1); split; auto; apply nanos_bad; lia]. destruct (Z.leb_spec d 31); [|exists (-1); split; auto; apply nanos_bad; lia].
  exists (nanos y m d). split; [apply nanos_ok; lia|]. right. split; [now apply nanos_nonneg|]. repeat split; auto.
Qed.

(** ** Digits *)

Lemma length_digits k v : length (digits k v) = k.
Proof. revert v. induction k as [|k IH]; intros v; auto. cbn [digits]. rewrite app_length, IH. cbn. lia. Qed.
Lemma digits_digit k : forall v c, In c (digits k v) -> 48 <= c <= 57.
Proof.
  induction k as [|k IH]; intros v c H; [destruct H|]. cbn [digits] in H. apply in_app_or in H. destruct H as [H|[<-|[]]]; [eauto|].
  pose proof (Z.mod_pos_bound v 10). lia.
Qed.
Definition value (l : list Z) (a : Z) : Z := fold_left (fun a c => a * 10 + (c - 48)) l a.
Lemma value_digits k : forall v a, 0 <= v < 10 ^ Z.of_nat k -> value (digits k v) a = a * 10 ^ Z.of_nat k + v.
Proof.
  induction k as [|k IH]; intros v a H; [cbn in *; lia|]. cbn [digits]. unfold value in *. rewrite fold_left_app. rewrite IH.
  - cbn [fold_left]. rewrite Nat2Z.inj_succ, Z.pow_succ_r by lia. pose proof (Z.div_mod v 10). lia.
  - rewrite Nat2Z.inj_succ, Z.pow_succ_r in H by lia. split; [apply Z.div_pos; lia|apply Z.div_lt_upper_bound; lia].
Qed.
Lemma is_digit_iff c : is_digit c = true <-> 48 <= c <= 57.
Proof. unfold is_digit. lia. Qed.

(** ** The cursor *)

Section Row.
  Context (row : list Z).
  Local Notation n := (Z.of_nat (length row)).

  Definition At (p : Z) (rest : list Z) : Prop := exists pre, row = pre ++ rest /\ p = Z.of_nat (length pre).

  Lemma at_start : At 0 row.
  Proof. exists []. auto. Qed.
  Lemma at_cons p c r : At p (c :: r) -> zrd row p = Some c /\ (p <? n) = true /\ (p >=? n) = false /\ At (p + 1) r.
  Proof.
    intros (pre & E & ->). split.
    - rewrite zrd_some, Nat2Z.id by lia. rewrite E, nth_error_app2, Nat.sub_diag by lia. reflexivity.
    - assert (L : length row = (length pre + S (length r))%nat) by (rewrite E, app_length; reflexivity). split; [lia|]. split; [lia|].
      exists (pre ++ [c]). rewrite <- app_assoc. split; auto. rewrite app_length. cbn. lia.
  Qed.
  Lemma at_nil p : At p [] -> (p <? n) = false /\ (p >=? n) = true.
  Proof. intros (pre & E & ->). rewrite app_nil_r in E. subst. lia. Qed.
  Lemma at_app p a r : At p (a ++ r) -> At (p + Z.of_nat (length a)) r.
  Proof. intros (pre & E & ->). exists (pre ++ a). rewrite <- app_assoc. split; auto. rewrite app_length. lia. Qed.
  Lemma at_len p r : At p r -> (length r < S (length row))%nat.
  Proof. intros (pre & -> & _). rewrite app_length. lia. Qed.

  (** *** leading blanks *)
  Lemma isspace_blank c : c = 32 \/ 9 <= c <= 13 -> isspace c = Some true.
  Proof. intros H. unfold isspace. replace ((-1 <=? c) && (c <=? 255)) with true by lia. f_equal. lia. Qed.
  Lemma isspace_digit c : 48 <= c <= 57 -> isspace c = Some false.
  Proof. intros H. unfold isspace. replace ((-1 <=? c) && (c <=? 255)) with true by lia. f_equal. lia. Qed.

  Lemma leading_blank a c r e : blank a -> 48 <= c <= 57 -> forall f p, At p (a ++ c :: r) -> (length a < f)%nat ->
    consume_leading row f (p, e) = Some (p + Z.of_nat (length a), e).
  Proof.
    induction a as [|b a IH]; intros Hb Hc f p HA Hf; (destruct f as [|f]; [cbn in Hf; lia|]); cbn [app] in HA; destruct (at_cons _ _ _ HA) as (Er & _ & Ep & HA'); cbn [consume_leading]; unfold at_end; cbn [fst]; rewrite Ep, Er.
    - replace (c =? 0) with false by lia. rewrite isspace_digit by auto. cbn. do 2 f_equal. lia.
    - assert (Hb' : b = 32 \/ 9 <= b <= 13) by (apply Hb; cbn; auto). replace (b =? 0) with false by lia. rewrite isspace_blank by auto. unfold adv. cbn [fst snd].
      rewrite IH; auto; [|intros x Hx; apply Hb; cbn; auto|cbn in Hf; lia]. do 2 f_equal. cbn [length]. lia.
  Qed.

  (** *** trailing padding *)
  Lemma trailing_pad e l : padding l -> forall f p, At p l -> (length l < f)%nat -> exists q, consume_trailing row f (p, e) = Some (q, e).
  Proof.
    intros (a & b & -> & Ha). induction a as [|c a IH]; intros f p HA Hf; (destruct f as [|f]; [cbn in Hf; lia|]); cbn [consume_trailing]; unfold at_end; cbn [fst].
    - destruct b as [|b]; cbn in HA.
      + apply at_nil in HA. destruct HA as (_ & ->). eauto.
      + apply at_cons in HA. destruct HA as (-> & _ & -> & _). cbn. eauto.
    - cbn [app] in HA. destruct (at_cons _ _ _ HA) as (Er & _ & Ep & HA'). rewrite Ep, Er.
      assert (Hb' : c = 32 \/ 9 <= c <= 13) by (apply Ha; cbn; auto). replace (c =? 0) with false by lia. rewrite isspace_blank by auto. unfold adv. cbn [fst snd].
      apply IH; auto; [intros x Hx; apply Ha; cbn; auto|cbn in Hf; lia].
  Qed.

  (** *** numbers *)
  Lemma take_digits_ok mx e : forall l f num places p r, (forall c, In c l -> 48 <= c <= 57) -> At p (l ++ r) -> (length l < f)%nat -> 0 <= places ->
    (places + Z.of_nat (length l) = mx /\ l <> []) \/ (places + Z.of_nat (length l) < mx /\ (r = [] \/ exists c r', r = c :: r' /\ is_digit c = false)) ->
    take_digits row f mx num places (p, e) = Some (value l num, places + Z.of_nat (length l), (p + Z.of_nat (length l), e)).
  Proof.
    induction l as [|c l IH]; intros f num places p r Hl HA Hf Hp Hc; (destruct f as [|f]; [cbn in Hf; lia|]); cbn [take_digits fst].
    - destruct Hc as [(_ & C)|(_ & C)]; [congruence|]. cbn [app] in HA. cbn [value fold_left length]. rewrite !Z.add_0_r.
      destruct C as [->|(c & r' & -> & Ec)].
      + apply at_nil in HA. destruct HA as (-> & _). reflexivity.
      + apply at_cons in HA. destruct HA as (-> & -> & _). rewrite Ec. reflexivity.
    - cbn [app] in HA. destruct (at_cons _ _ _ HA) as (-> & -> & _ & HA'). assert (Hc' : 48 <= c <= 57) by (apply Hl; cbn; auto).
      rewrite (proj2 (is_digit_iff c) Hc'). unfold adv. cbn [fst snd]. destruct (Z.eqb_spec (places + 1) mx) as [Q|Q].
      + assert (l = []) as -> by (destruct l; [auto|exfalso; cbn [length] in Hc; lia]). reflexivity.
      + rewrite (IH f _ _ _ r); auto; try lia.
        * cbn [value fold_left]. do 3 f_equal; cbn [length]; lia.
        * intros x Hx. apply Hl. cbn. auto.
        * cbn in Hf. lia.
        * destruct Hc as [(A & _)|(A & B)]; cbn [length] in A.
          -- left. split; [lia|]. intros ->. cbn in A. lia.
          -- right. split; [lia|auto].
  Qed.
  Lemma skip_digit c r e f p : At p (c :: r) -> 48 <= c <= 57 -> (0 < f)%nat -> skip_nondigits row f (p, e) = Some (p, e).
  Proof.
    intros HA Hc Hf. destruct f as [|f]; [lia|]. cbn [skip_nondigits fst]. apply at_cons in HA. destruct HA as (-> & -> & _). now rewrite (proj2 (is_digit_iff c) Hc).
  Qed.
  Lemma ParseNumber_ok k v e p r : At p (digits k v ++ r) -> (0 < k)%nat -> 0 <= v < 10 ^ Z.of_nat k ->
    ParseNumber row (Z.of_nat k) (p, e) = Some (v, (p + Z.of_nat k, e)).
  Proof.
    intros HA Hk Hv. unfold ParseNumber. pose proof (length_digits k v) as Ld. pose proof (digits_digit k v) as Hd. pose proof (value_digits k v 0 Hv) as Hval.
    assert (Lr : (length (digits k v ++ r) < S (length row))%nat) by (eapply at_len; eauto). rewrite app_length in Lr.
    destruct (digits k v) as [|c l] eqn:E; [cbn in Ld; lia|]. rewrite (skip_digit c (l ++ r)); [|exact HA|apply Hd; cbn; auto|lia].
    rewrite (take_digits_ok (Z.of_nat k) e (c :: l) _ 0 0 p r); auto; try lia.
    - rewrite Hval, Ld. reflexivity.
    - left. split; [lia|discriminate].
  Qed.

  Lemma ParseNumber2 v e p r : At p (digits 2 v ++ r) -> two v -> ParseNumber row 2 (p, e) = Some (v, (p + 2, e)).
  Proof. intros HA Hv. apply (ParseNumber_ok 2 v e p r HA); [lia|exact Hv]. Qed.
  Lemma ParseNumber4 v e p r : At p (digits 4 v ++ r) -> 0 <= v < 10000 -> ParseNumber row 4 (p, e) = Some (v, (p + 4, e)).
  Proof. intros HA Hv. apply (ParseNumber_ok 4 v e p r HA); [lia|exact Hv]. Qed.
  Lemma at_digits2 v p r : At p (digits 2 v ++ r) -> At (p + 2) r.
  Proof. intros HA. apply at_app in HA. now rewrite length_digits in HA. Qed.
  Lemma at_digits4 v p r : At p (digits 4 v ++ r) -> At (p + 4) r.
  Proof. intros HA. apply at_app in HA. now rewrite length_digits in HA. Qed.

  (** *** delimiters *)
  Lemma single_ok c r e p : At p (c :: r) -> is_digit c = false -> ParseSingleNonNumber row c (p, e) = Some (true, (p + 1, e)).
  Proof. intros HA Hc. unfold ParseSingleNonNumber. cbn [fst]. apply at_cons in HA. destruct HA as (-> & -> & _). rewrite Hc, Z.eqb_refl. reflexivity. Qed.
  Lemma single_digit x c r e p : At p (c :: r) -> 48 <= c <= 57 -> ParseSingleNonNumber row x (p, e) = Some (false, (p, e)).
  Proof. intros HA Hc. unfold ParseSingleNonNumber. cbn [fst]. apply at_cons in HA. destruct HA as (-> & -> & _). now rewrite (proj2 (is_digit_iff c) Hc). Qed.
  Lemma single_end x e p : At p [] -> ParseSingleNonNumber row x (p, e) = Some (false, (p, e)).
  Proof. intros HA. unfold ParseSingleNonNumber. cbn [fst]. apply at_nil in HA. destruct HA as (-> & _). reflexivity. Qed.

  (** *** rests without digits *)
  Lemma skip_all l : no_digit l -> forall f p e, At p l -> (length l < f)%nat -> exists e', skip_nondigits row f (p, e) = Some (n, e').
  Proof.
    induction l as [|c l IH]; intros Hl f p e HA Hf; (destruct f as [|f]; [cbn in Hf; lia|]); cbn [skip_nondigits fst].
    - pose proof HA as (pre & E & ->). apply at_nil in HA. destruct HA as (-> & _). rewrite app_nil_r in E. rewrite E. eauto.
    - apply at_cons in HA. destruct HA as (-> & -> & _ & HA'). rewrite (Hl c) by (cbn; auto). unfold adv, set_error. cbn [fst snd]. apply IH; auto; [|cbn in Hf; lia].
      intros x Hx. apply Hl. cbn. auto.
  Qed.
  Lemma at_n : At n [].
  Proof. exists row. rewrite app_nil_r. auto. Qed.
  Lemma ParseNumber_none l : no_digit l -> forall p e mx, At p l -> exists e', ParseNumber row mx (p, e) = Some (0, (n, e')).
  Proof.
    intros Hl p e mx HA. unfold ParseNumber. destruct (skip_all l Hl (S (length row)) p e HA) as (e' & ->); [eapply at_len; eauto|].
    cbn [take_digits fst]. rewrite Z.ltb_irrefl. eauto.
  Qed.
  Lemma trailing_end e f : consume_trailing row (S f) (n, e) = Some (n, e).
  Proof. cbn [consume_trailing]. unfold at_end. cbn [fst]. now rewrite Z.geb_leb, Z.leb_refl. Qed.

  (** *** dates *)
  Lemma first_digit k v r : (0 < k)%nat -> exists c r', digits k v ++ r = c :: r' /\ 48 <= c <= 57.
  Proof.
    intros Hk. destruct (digits k v) as [|c l] eqn:E; [pose proof (length_digits k v) as L; rewrite E in L; cbn in L; lia|].
    exists c, (l ++ r). split; auto. apply (digits_digit k v). rewrite E. cbn. auto.
  Qed.

  Lemma parse_ymd_ok b y m d e p r : At p (date_text b y m d ++ r) -> 0 <= y < 10000 -> two m -> two d ->
    parse_ymd row (p, e) = Some (y, m, d, (p + Z.of_nat (length (date_text b y m d)), e)).
  Proof.
    intros HA Hy Hm Hd. unfold parse_ymd, date_text in *. rewrite <- !app_assoc in HA.
    rewrite (ParseNumber4 y e p _ HA) by auto. apply at_digits4 in HA.
    destruct b; cbn [dash app] in *.
    - rewrite (single_ok 45 _ _ _ HA eq_refl). apply at_cons in HA. destruct HA as (_ & _ & _ & HA).
      rewrite (ParseNumber2 m e _ _ HA) by auto. apply at_digits2 in HA.
      rewrite (single_ok 45 _ _ _ HA eq_refl). apply at_cons in HA. destruct HA as (_ & _ & _ & HA). cbn [Bool.eqb].
      rewrite (ParseNumber2 d e _ _ HA) by auto. do 3 f_equal. rewrite !app_length, !length_digits. cbn [length app]. rewrite app_length, !length_digits. cbn [length]. rewrite length_digits. lia.
    - destruct (first_digit 2 m (digits 2 d ++ r)) as (c & r' & E & Hc); [lia|]. rewrite (single_digit 45 c r') by (auto; now rewrite <- E).
      rewrite (ParseNumber2 m e _ _ HA) by auto. apply at_digits2 in HA.
      destruct (first_digit 2 d r) as (c' & r'' & E' & Hc'); [lia|]. rewrite (single_digit 45 c' r'') by (auto; now rewrite <- E'). cbn [Bool.eqb].
      rewrite (ParseNumber2 d e _ _ HA) by auto. do 3 f_equal. rewrite !app_length, !length_digits. lia.
  Qed.

  (** *** clocks *)
  Lemma padding_digit l : padding l -> no_digit l.
  Proof.
    intros (a & b & -> & Ha) c Hc. apply in_app_or in Hc. destruct Hc as [Hc|Hc]; [apply Ha in Hc; unfold is_digit; lia|]. apply repeat_spec in Hc. subst c. reflexivity.
  Qed.
  Lemma padding_hd c l : padding (c :: l) -> is_digit c = false /\ c <> 46 /\ c <> 58 /\ no_digit l.
  Proof.
    intros Hp. pose proof (padding_digit _ Hp) as Hn. split; [apply Hn; cbn; auto|]. destruct Hp as (a & b & E & Ha).
    assert (Hc : c = 0 \/ c = 32 \/ 9 <= c <= 13).
    { destruct a as [|x a]; cbn in E; [destruct b; inversion E; auto|]. inversion E; subst x. right. apply Ha. cbn. auto. }
    repeat split; try lia. intros x Hx. apply Hn. cbn. auto.
  Qed.

  Definition cl_h (c : clock) : Z := match c with HM h _ | HMS h _ _ | HMSF h _ _ _ _ => h end.
  Definition cl_m (c : clock) : Z := match c with HM _ m | HMS _ m _ | HMSF _ m _ _ _ => m end.
  Definition cl_s (c : clock) : Z := match c with HM _ _ => 0 | HMS _ _ s | HMSF _ _ s _ _ => s end.
  Definition cl_good (c : clock) : bool := (cl_h c <? 24) && ((cl_m c <? 60) && (cl_s c <? 60)).
  Definition cl_frac (c : clock) : Z := match c with HMSF _ _ _ k f => f * 10 ^ (9 - Z.of_nat k) | _ => 0 end.

  Lemma pad9_ok f k : (1 <= k <= 9)%nat -> pad9 f (Z.of_nat k) = f * 10 ^ (9 - Z.of_nat k).
  Proof.
    intros Hk. assert (H : In k (seq 1 9)) by (apply in_seq; lia). cbn in H.
    repeat match goal with H : _ \/ _ |- _ => destruct H as [<-|H] end; [..|destruct H];
      match goal with |- _ = f * ?e => let v := eval vm_compute in e in change e with v end;
      match goal with |- pad9 f ?e = _ => let v := eval vm_compute in e in change e with v end; unfold pad9; cbn [Z.leb Z.compare Pos.compare Pos.compare_cont];
      match goal with |- context [?a + ?b =? 7] => let v := eval vm_compute in (a + b) in change (a + b) with v | |- _ => idtac end; cbn [Z.eqb Pos.eqb]; lia.
  Qed.

  (** hours, minutes, seconds and fraction up to the padding: value, and no complaint if there are seconds or no padding *)
  Lemma clock_run c e p pad : At p (clock_text c ++ pad) -> clock_shape c -> padding pad ->
    exists s1 b s2 s3 q e', ParseNumber row 2 (p, e) = Some (cl_h c, s1) /\
      parse_min_sec row s1 = Some (true, cl_m c, cl_s c, b, s2) /\ (cl_h c <? 24) && b = cl_good c /\
      (forall good t, parse_fraction row good t s2 = Some (if good then t + cl_frac c else t, s3)) /\
      consume_trailing row (S (length row)) s3 = Some (q, e') /\ (has_seconds c \/ pad = [] -> e' = e).
  Proof.
    intros HA Hs Hp.
    assert (HM_ : forall h m p r, At p (digits 2 h ++ [58] ++ digits 2 m ++ r) -> two h -> two m ->
      ParseNumber row 2 (p, e) = Some (h, (p + 2, e)) /\ ParseSingleNonNumber row 58 (p + 2, e) = Some (true, (p + 2 + 1, e)) /\
      ParseNumber row 2 (p + 2 + 1, e) = Some (m, (p + 2 + 1 + 2, e)) /\ At (p + 2 + 1 + 2) r).
    { clear. intros h m p r HA Hh Hm. rewrite (ParseNumber2 h e p _ HA) by auto. apply at_digits2 in HA.
      cbn [app] in HA. split; [reflexivity|]. rewrite (single_ok 58 _ _ _ HA eq_refl). apply at_cons in HA. destruct HA as (_ & _ & _ & HA). split; [reflexivity|].
      rewrite (ParseNumber2 m e _ _ HA) by auto. apply at_digits2 in HA. auto. }
    assert (FR : forall p r good t, At p r -> (r = [] \/ exists c r', r = c :: r' /\ c <> 46) -> parse_fraction row good t (p, e) = Some (t, (p, e))).
    { clear. intros p r good t HA Hr. unfold parse_fraction. cbn [fst]. destruct Hr as [->|(c & r' & -> & Hc)].
      - apply at_nil in HA. destruct HA as (-> & _). reflexivity.
      - apply at_cons in HA. destruct HA as (-> & -> & _). replace (c =? 46) with false by lia. reflexivity. }
    assert (PD : pad = [] \/ exists c r', pad = c :: r' /\ c <> 46) by (destruct pad as [|x pad]; auto; right; exists x, pad; split; auto; apply (padding_hd x pad Hp)).
    destruct c as [h m|h m s|h m s k f]; cbn [clock_text clock_shape cl_h cl_m cl_s cl_frac has_seconds] in *; rewrite <- ?app_assoc in HA.
    - destruct Hs as (Hh & Hm). destruct (HM_ h m p _ HA Hh Hm) as (E1 & E2 & E3 & HA'). rewrite E1. exists (p + 2, e).
      unfold parse_min_sec. rewrite E2, E3. destruct pad as [|x pad].
      + rewrite single_end by auto. exists (m <? 60), (p + 2 + 1 + 2, e), (p + 2 + 1 + 2, e), (p + 2 + 1 + 2), e. do 2 (split; [reflexivity|]). split; [unfold cl_good; cbn [cl_h cl_m cl_s]; lia|].
        split; [intros good t0; rewrite (FR _ [] good t0) by auto; destruct good; rewrite ?Z.add_0_r; reflexivity|].
        split; [|auto]. cbn [consume_trailing]. unfold at_end. cbn [fst]. apply at_nil in HA'. destruct HA' as (_ & ->). reflexivity.
      + destruct (padding_hd x pad Hp) as (Nx & _ & N58 & Nd). unfold ParseSingleNonNumber at 1. cbn [fst]. destruct (at_cons _ _ _ HA') as (-> & -> & _ & HA''). rewrite Nx.
        replace (x =? 58) with false by lia. unfold adv, set_error. cbn [fst snd]. match goal with |- context [ParseNumber row 2 (?q, ?er)] => destruct (ParseNumber_none pad Nd q er 2 HA'') as (e2 & ->) end.
        exists ((m <? 60) && (0 <? 60)), (n, e2), (n, e2), n, e2. do 2 (split; [reflexivity|]). split; [reflexivity|]. split.
        * intros good t0. unfold parse_fraction. cbn [fst]. rewrite Z.ltb_irrefl. destruct good; rewrite ?Z.add_0_r; reflexivity.
        * split; [apply trailing_end|]. intros [[]|C]; discriminate.
    - destruct Hs as (Hh & Hm & Hsec). destruct (HM_ h m p _ HA Hh Hm) as (E1 & E2 & E3 & HA'). rewrite E1. exists (p + 2, e).
      unfold parse_min_sec. rewrite E2, E3. rewrite (single_ok 58 _ _ _ HA' eq_refl). apply at_cons in HA'. destruct HA' as (_ & _ & _ & HA').
      rewrite (ParseNumber2 s e _ _ HA') by auto. apply at_digits2 in HA'.
      destruct (trailing_pad e pad Hp (S (length row)) _ HA') as (q & Et); [eapply at_len; eauto|].
      do 3 eexists. exists q, e. do 2 (split; [reflexivity|]). split; [reflexivity|].
      split; [intros good t0; rewrite (FR _ pad good t0) by auto; destruct good; rewrite ?Z.add_0_r; reflexivity|]. split; [exact Et|auto].
    - destruct Hs as (Hh & Hm & Hsec & Hk & Hf). destruct (HM_ h m p _ HA Hh Hm) as (E1 & E2 & E3 & HA'). rewrite E1. exists (p + 2, e).
      unfold parse_min_sec. rewrite E2, E3. rewrite (single_ok 58 _ _ _ HA' eq_refl). apply at_cons in HA'. destruct HA' as (_ & _ & _ & HA').
      rewrite (ParseNumber2 s e _ _ HA') by auto. apply at_digits2 in HA'.
      cbn [app] in HA'. destruct (at_cons _ _ _ HA') as (Ec & Ep & _ & HA''). pose proof (at_app _ _ _ HA'') as HA3. rewrite length_digits in HA3.
      destruct (trailing_pad e pad Hp (S (length row)) _ HA3) as (q & Et); [eapply at_len; eauto|].
      do 3 eexists. exists q, e. do 2 (split; [reflexivity|]). split; [reflexivity|]. split; [|split; [exact Et|auto]].
      intros good t0. unfold parse_fraction. cbn [fst]. rewrite Ep, Ec. cbn [Z.eqb Pos.eqb]. unfold ParseDecimal, adv. cbn [fst snd].
      rewrite (take_digits_ok 9 e (digits k f) _ 0 0 _ pad); auto.
      + rewrite length_digits, value_digits by auto. cbn [Z.add Z.mul]. rewrite pad9_ok by auto. reflexivity.
      + apply digits_digit.
      + pose proof (at_len _ _ HA'') as L. rewrite app_length in L. lia.
      + lia.
      + rewrite length_digits. destruct (Nat.eq_dec k 9) as [->|Nk].
        * left. split; [reflexivity|]. intros C. apply (f_equal (@length Z)) in C. rewrite length_digits in C. discriminate.
        * right. split; [lia|]. destruct pad as [|x pad']; auto. right. exists x, pad'. split; auto. apply (padding_digit _ Hp). cbn. auto.
  Qed.

  (** *** whatever the text: no read outside it *)
  Definition inb (s : pst) : Prop := 0 <= fst s <= n.
  Lemma inb_rd s : inb s -> fst s < n -> exists c, zrd row (fst s) = Some c /\ In c row.
  Proof.
    intros (A & B) C. destruct (nth_error_lt row (Z.to_nat (fst s))) as (c & E); [lia|]. exists c. rewrite zrd_some by auto. split; auto. eapply nth_error_In; eauto.
  Qed.
  Lemma inb_adv s : inb s -> fst s < n -> inb (adv s).
  Proof. unfold inb, adv. cbn. lia. Qed.
  Lemma inb_err s : inb s -> inb (set_error s).
  Proof. unfold inb, set_error. auto. Qed.

  Lemma at_end_total s : inb s -> exists b, at_end row s = Some b /\ (b = false -> fst s < n).
  Proof.
    intros H. unfold at_end. destruct (Z.geb_spec (fst s) n) as [Q|Q]; [exists true; split; auto; discriminate|].
    destruct (inb_rd s H Q) as (c & -> & _). exists (c =? 0). auto.
  Qed.
  Lemma leading_total : plain row -> forall f s, inb s -> n - fst s < Z.of_nat f -> exists s', consume_leading row f s = Some s' /\ inb s'.
  Proof.
    intros Hp. induction f as [|f IH]; intros s Hs Hf; [unfold inb in Hs; lia|]. cbn [consume_leading]. destruct (at_end_total s Hs) as (b & -> & Hb).
    destruct b; [eauto|]. destruct (inb_rd s Hs (Hb eq_refl)) as (c & -> & Hc). unfold isspace. specialize (Hp c Hc).
    replace ((-1 <=? c) && (c <=? 255)) with true by lia. destruct (_ || _); [|eauto]. apply IH; [apply inb_adv; auto|]. unfold adv. cbn [fst]. lia.
  Qed.
  Lemma trailing_total : plain row -> forall f s, inb s -> n - fst s < Z.of_nat f -> exists s', consume_trailing row f s = Some s' /\ inb s'.
  Proof.
    intros Hp. induction f as [|f IH]; intros s Hs Hf; [unfold inb in Hs; lia|]. cbn [consume_trailing]. destruct (at_end_total s Hs) as (b & -> & Hb).
    destruct b; [eauto|]. destruct (inb_rd s Hs (Hb eq_refl)) as (c & -> & Hc). unfold isspace. specialize (Hp c Hc).
    replace ((-1 <=? c) && (c <=? 255)) with true by lia. specialize (Hb eq_refl). apply IH.
    - apply inb_adv; destruct (_ || _); auto using inb_err.
    - unfold adv. cbn [fst]. destruct (_ || _); cbn [fst set_error]; lia.
  Qed.
  Lemma skip_total : forall f s, inb s -> n - fst s < Z.of_nat f -> exists s', skip_nondigits row f s = Some s' /\ inb s'.
  Proof.
    induction f as [|f IH]; intros s Hs Hf; [unfold inb in Hs; lia|]. cbn [skip_nondigits]. destruct (Z.ltb_spec (fst s) n) as [Q|Q]; [|eauto].
    destruct (inb_rd s Hs Q) as (c & -> & _). destruct (is_digit c); [eauto|]. apply IH; [apply inb_adv; auto using inb_err|]. unfold adv, set_error. cbn [fst]. lia.
  Qed.
  Lemma take_total mx : forall f num places s, inb s -> n - fst s < Z.of_nat f -> 0 <= num -> 0 <= places -> exists v k s', take_digits row f mx num places s = Some (v, k, s') /\ inb s' /\ 0 <= v /\ 0 <= k.
  Proof.
    induction f as [|f IH]; intros num places s Hs Hf Hn Hp; [unfold inb in Hs; lia|]. cbn [take_digits]. destruct (Z.ltb_spec (fst s) n) as [Q|Q]; [|eauto 10].
    destruct (inb_rd s Hs Q) as (c & -> & _). destruct (is_digit c) eqn:D; [|eauto 10]. apply is_digit_iff in D. destruct (places + 1 =? mx).
    - do 3 eexists. split; [reflexivity|]. split; [apply inb_adv; auto|]. lia.
    - apply IH; try lia. + apply inb_adv; auto. + unfold adv. cbn [fst]. lia.
  Qed.
  Lemma ParseNumber_total mx s : inb s -> exists v s', ParseNumber row mx s = Some (v, s') /\ inb s' /\ 0 <= v.
  Proof.
    intros Hs. unfold ParseNumber. destruct (skip_total (S (length row)) s Hs) as (s1 & -> & H1); [unfold inb in Hs; lia|].
    destruct (take_total mx (S (length row)) 0 0 s1 H1) as (v & k & s2 & -> & H2 & Hv & _); [unfold inb in H1; lia|lia|lia|]. eauto.
  Qed.
  Lemma single_total x s : inb s -> exists b s', ParseSingleNonNumber row x s = Some (b, s') /\ inb s'.
  Proof.
    intros Hs. unfold ParseSingleNonNumber. destruct (Z.ltb_spec (fst s) n) as [Q|Q]; [|eauto]. destruct (inb_rd s Hs Q) as (c & -> & _).
    destruct (is_digit c); [eauto|]. do 2 eexists. split; [reflexivity|]. apply inb_adv; destruct (c =? x); auto using inb_err.
  Qed.
  Lemma pad9_nonneg v k : 0 <= v -> 0 <= pad9 v k.
  Proof.
    intros H. unfold pad9. destruct (k <=? 0), (k <=? 3), (k <=? 6); cbn [fst snd];
      match goal with |- context [?a =? 7] => destruct (a =? 7), (a =? 8); lia end.
  Qed.
  Lemma fraction_total good t s : inb s -> exists t' s', parse_fraction row good t s = Some (t', s') /\ inb s' /\ (0 <= t -> 0 <= t') /\ (good = false -> t' = t).
  Proof.
    intros Hs. unfold parse_fraction. destruct (Z.ltb_spec (fst s) n) as [Q|Q]; [|eauto 10]. destruct (inb_rd s Hs Q) as (c & -> & _). destruct (c =? 46); [|eauto 10].
    unfold ParseDecimal. pose proof (inb_adv s Hs Q) as Ha. destruct (take_total 9 (S (length row)) 0 0 (adv s) Ha) as (v & k & s1 & -> & H1 & Hv & Hk); [unfold inb in Ha; lia|lia|lia|].
    do 2 eexists. split; [reflexivity|]. split; auto. pose proof (pad9_nonneg v k Hv). destruct good; split; intros; auto; try discriminate. lia.
  Qed.
  Ltac splits := repeat match goal with |- _ /\ _ => split end.
  Lemma min_sec_total s : inb s -> exists c m sec ok s', parse_min_sec row s = Some (c, m, sec, ok, s') /\ inb s' /\ 0 <= m /\ 0 <= sec /\ (ok = true -> m < 60 /\ sec < 60).
  Proof.
    intros Hs. unfold parse_min_sec. destruct (single_total 58 s Hs) as (b & s1 & -> & H1). destruct b.
    - destruct (ParseNumber_total 2 s1 H1) as (m & s2 & -> & H2 & Hm). destruct (single_total 58 s2 H2) as (b & s3 & -> & H3). destruct b.
      + destruct (ParseNumber_total 2 s3 H3) as (x & s4 & -> & H4 & Hx). do 5 eexists. split; [reflexivity|]. splits; auto; lia.
      + do 5 eexists. split; [reflexivity|]. splits; auto; lia.
    - do 5 eexists. split; [reflexivity|]. splits; auto; lia.
  Qed.
  Lemma ymd_total s : inb s -> exists y m d s', parse_ymd row s = Some (y, m, d, s') /\ inb s'.
  Proof.
    intros Hs. unfold parse_ymd. destruct (ParseNumber_total 4 s Hs) as (y & s1 & -> & H1 & _). destruct (single_total 45 s1 H1) as (b & s2 & -> & H2).
    destruct (ParseNumber_total 2 s2 H2) as (m & s3 & -> & H3 & _). destruct (single_total 45 s3 H3) as (b' & s4 & -> & H4).
    destruct (ParseNumber_total 2 (if Bool.eqb b b' then s4 else set_error s4)) as (d & s5 & -> & H5 & _); [destruct (Bool.eqb b b'); auto using inb_err|]. eauto 10.
  Qed.
  Lemma start_inb e : inb (0, e).
  Proof. unfold inb. cbn. lia. Qed.
End Row.
Ltac splits := repeat match goal with |- _ /\ _ => split end.

(** ** The three parsers on any text *)

Lemma ParseDate_total row e : plain row -> exists t e', ParseDate row e = Some (t, e') /\
  (t = 0 \/ exists y m d, 1970 <= y <= 2099 /\ 1 <= m <= 12 /\ 1 <= d <= 31 /\ t = nanos y m d).
Proof.
  intros Hp. unfold ParseDate. destruct (leading_total row Hp (S (length row)) (0, e) (start_inb row e)) as (s0 & -> & H0); [cbn [fst]; lia|].
  destruct (at_end_total row s0 H0) as (b & -> & _). destruct b; [eauto 10|]. destruct (ymd_total row s0 H0) as (y & m & d & s1 & -> & H1).
  destruct (YearToEpochNano_total y m d) as (r & -> & Hr). destruct (trailing_total row Hp (S (length row)) s1 H1) as (s2 & -> & _); [unfold inb in H1; lia|].
  do 2 eexists. split; [reflexivity|]. destruct Hr as [->|(P & A & B & C & E)]; [left; reflexivity|]. right. exists y, m, d. replace (r <? 0) with false by lia. auto.
Qed.

Lemma ParseTime_total row e : plain row -> exists t e', ParseTime row e = Some (t, e') /\ 0 <= t.
Proof.
  intros Hp. unfold ParseTime. destruct (leading_total row Hp (S (length row)) (0, e) (start_inb row e)) as (s0 & -> & H0); [cbn [fst]; lia|].
  destruct (at_end_total row s0 H0) as (b & -> & _). destruct b; [do 2 eexists; split; [reflexivity|lia]|].
  destruct (ParseNumber_total row 2 s0 H0) as (h & s1 & -> & H1 & Hh). destruct (min_sec_total row s1 H1) as (c & m & sec & ok & s2 & -> & H2 & Hm & Hs & _).
  destruct c.
  - match goal with |- context [parse_fraction row ?g ?t s2] => destruct (fraction_total row g t s2 H2) as (t' & s3 & -> & H3 & Ht & _) end.
    destruct (trailing_total row Hp (S (length row)) s3 H3) as (s4 & -> & _); [unfold inb in H3; lia|]. do 2 eexists. split; [reflexivity|]. apply Ht. destruct (_ && _); lia.
  - destruct (trailing_total row Hp (S (length row)) s2 H2) as (s4 & -> & _); [unfold inb in H2; lia|]. do 2 eexists. split; [reflexivity|]. lia.
Qed.

Lemma ParseDateTime_total row e : plain row -> exists t e', ParseDateTime row e = Some (t, e') /\ 0 <= t.
Proof.
  intros Hp. unfold ParseDateTime. destruct (leading_total row Hp (S (length row)) (0, e) (start_inb row e)) as (s0 & -> & H0); [cbn [fst]; lia|].
  destruct (at_end_total row s0 H0) as (b & -> & _). destruct b; [do 2 eexists; split; [reflexivity|lia]|]. destruct (ymd_total row s0 H0) as (y & m & d & s1 & -> & H1).
  destruct (YearToEpochNano_total y m d) as (r & -> & Hr).
  assert (C : exists h mi sec ok s', parse_clock row s1 = Some (h, mi, sec, ok, s') /\ inb row s' /\ 0 <= h /\ 0 <= mi /\ 0 <= sec).
  { unfold parse_clock. destruct (Z.ltb_spec (fst s1) (Z.of_nat (length row))) as [Q|Q]; [|do 5 eexists; split; [reflexivity|]; splits; auto; lia].
    destruct (inb_rd row s1 H1 Q) as (c & -> & _). destruct (is_digit c); [do 5 eexists; split; [reflexivity|]; splits; auto; lia|].
    destruct (ParseNumber_total row 2 (adv (if (c =? 84) || (c =? 32) then s1 else set_error s1))) as (h & s2 & -> & H2 & Hh); [apply inb_adv; destruct (_ || _); auto using inb_err|].
    destruct (min_sec_total row s2 H2) as (cc & m' & sec & ok & s3 & -> & H3 & Hm & Hs & _). do 5 eexists. split; [reflexivity|]. splits; auto; lia. }
  destruct C as (h & mi & sec & ok & s2 & -> & H2 & Hh & Hmi & Hsec).
  match goal with |- context [parse_fraction row ?g ?t s2] => destruct (fraction_total row g t s2 H2) as (t' & s3 & -> & H3 & Ht & _) end.
  destruct (trailing_total row Hp (S (length row)) s3 H3) as (s4 & -> & _); [unfold inb in H3; lia|]. do 2 eexists. split; [reflexivity|]. apply Ht.
  destruct (Z.ltb_spec r 0), (0 <=? r), ok; cbn [andb]; lia.
Qed.

(** ** Well-formed text *)

Lemma lead_ok sp k v r e : blank sp -> (0 < k)%nat -> let row := sp ++ digits k v ++ r in
  consume_leading row (S (length row)) (0, e) = Some (Z.of_nat (length sp), e) /\ at_end row (Z.of_nat (length sp), e) = Some false /\ At row (Z.of_nat (length sp)) (digits k v ++ r).
Proof.
  intros Hs Hk row. destruct (first_digit k v r Hk) as (c & r' & E & Hc). pose proof (at_start row) as HA. unfold row in *. rewrite E in *.
  rewrite (leading_blank _ sp c r' e Hs Hc _ 0 HA) by (rewrite app_length; lia). apply at_app in HA. cbn [Z.add] in *. split; [reflexivity|]. split; auto.
  unfold at_end. cbn [fst]. apply at_cons in HA. destruct HA as (-> & _ & -> & _). f_equal. lia.
Qed.

Lemma ParseDate_shape sp b y m d pad e : blank sp -> padding pad -> 0 <= y < 10000 -> two m -> two d ->
  ParseDate (sp ++ date_text b y m d ++ pad) e =
    match YearToEpochNano y m d with Some r => Some (if r <? 0 then 0 else r, e) | None => None end.
Proof.
  intros Hs Hp Hy Hm Hd. unfold ParseDate.
  assert (E : sp ++ date_text b y m d ++ pad = sp ++ digits 4 y ++ (dash b ++ digits 2 m ++ dash b ++ digits 2 d) ++ pad) by (unfold date_text; now rewrite <- !app_assoc).
  destruct (lead_ok sp 4 y ((dash b ++ digits 2 m ++ dash b ++ digits 2 d) ++ pad) e Hs) as (A & B & C); [lia|]. cbv zeta in A, B, C. rewrite <- E in A, B, C. rewrite A, B.
  assert (C' : At (sp ++ date_text b y m d ++ pad) (Z.of_nat (length sp)) (date_text b y m d ++ pad)) by (exists sp; auto).
  rewrite (parse_ymd_ok _ b y m d e _ pad C' Hy Hm Hd). destruct (YearToEpochNano y m d) as [r|]; auto.
  destruct (trailing_pad _ e pad Hp (S (length (sp ++ date_text b y m d ++ pad))) _ (at_app _ _ _ _ C')) as (q & ->); [eapply at_len, at_app; eauto|]. reflexivity.
Qed.

Lemma ParseDate_ok sp b y m d pad e : blank sp -> padding pad -> valid_date y m d ->
  ParseDate (sp ++ date_text b y m d ++ pad) e = Some (nanos y m d, e).
Proof.
  intros Hs Hp (Hy & Hm & Hd). pose proof (month_days_31 y m). rewrite ParseDate_shape by (auto; unfold two; lia). rewrite nanos_ok by lia.
  pose proof (nanos_nonneg y m d). replace (nanos y m d <? 0) with false by lia. reflexivity.
Qed.
Lemma ParseDate_bad sp b y m d pad e : blank sp -> padding pad -> 0 <= y < 10000 -> two m -> two d -> ~ (1970 <= y <= 2099 /\ 1 <= m <= 12 /\ 1 <= d <= 31) ->
  ParseDate (sp ++ date_text b y m d ++ pad) e = Some (0, e).
Proof. intros Hs Hp Hy Hm Hd N. rewrite ParseDate_shape, nanos_bad by auto. reflexivity. Qed.

Lemma cl_value c : clock_shape c -> 1000000000 * (cl_h c * 3600 + cl_m c * 60 + cl_s c) + cl_frac c = clock_nanos c.
Proof. destruct c; cbn [cl_h cl_m cl_s cl_frac clock_nanos]; intros; lia. Qed.
Lemma cl_good_ok c : cl_good c = true <-> clock_ok c.
Proof. unfold cl_good. destruct c; cbn [cl_h cl_m cl_s clock_ok]; lia. Qed.
Lemma clock_first c : exists v r, clock_text c = digits 2 v ++ r.
Proof. destruct c; cbn [clock_text]; eauto. Qed.

Lemma ParseTime_shape sp c pad e : blank sp -> padding pad -> clock_shape c ->
  exists e', ParseTime (sp ++ clock_text c ++ pad) e = Some (if cl_good c then clock_nanos c else 0, e') /\ (has_seconds c \/ pad = [] -> e' = e).
Proof.
  intros Hs Hp Hc. unfold ParseTime. set (row := sp ++ clock_text c ++ pad).
  destruct (clock_first c) as (v & r & Er).
  destruct (lead_ok sp 2 v (r ++ pad) e Hs) as (A & B & _); [lia|]. cbv zeta in A, B.
  assert (E : row = sp ++ digits 2 v ++ r ++ pad) by (unfold row; rewrite Er, <- app_assoc; reflexivity). rewrite <- E in A, B. rewrite A, B.
  assert (C : At row (Z.of_nat (length sp)) (clock_text c ++ pad)) by (exists sp; auto).
  destruct (clock_run row c e _ pad C Hc Hp) as (s1 & b & s2 & s3 & q & e' & -> & -> & Eg & Ef & Et & He). rewrite Eg, Ef, Et. exists e'. split; [|exact He].
  cbn [snd]. do 2 f_equal. destruct (cl_good c); auto. now apply cl_value.
Qed.

Lemma ParseTime_ok sp c pad e : blank sp -> padding pad -> clock_shape c -> clock_ok c ->
  exists e', ParseTime (sp ++ clock_text c ++ pad) e = Some (clock_nanos c, e') /\ (has_seconds c \/ pad = [] -> e' = e).
Proof. intros Hs Hp Hc Ho. destruct (ParseTime_shape sp c pad e Hs Hp Hc) as (e' & E & He). apply cl_good_ok in Ho. rewrite Ho in E. eauto. Qed.
Lemma ParseTime_bad sp c pad e : blank sp -> padding pad -> clock_shape c -> ~ clock_ok c ->
  exists e', ParseTime (sp ++ clock_text c ++ pad) e = Some (0, e').
Proof. intros Hs Hp Hc Ho. destruct (ParseTime_shape sp c pad e Hs Hp Hc) as (e' & E & _). rewrite <- cl_good_ok in Ho. apply Bool.not_true_is_false in Ho. rewrite Ho in E. eauto. Qed.

Lemma datetime_head sp b y m d rest e : blank sp -> 0 <= y < 10000 -> two m -> two d -> let row := sp ++ date_text b y m d ++ rest in
  let p := Z.of_nat (length sp) + Z.of_nat (length (date_text b y m d)) in
  consume_leading row (S (length row)) (0, e) = Some (Z.of_nat (length sp), e) /\ at_end row (Z.of_nat (length sp), e) = Some false /\
  parse_ymd row (Z.of_nat (length sp), e) = Some (y, m, d, (p, e)) /\ At row p rest.
Proof.
  intros Hs Hy Hm Hd row p.
  assert (E : row = sp ++ digits 4 y ++ (dash b ++ digits 2 m ++ dash b ++ digits 2 d) ++ rest) by (unfold row, date_text; now rewrite <- !app_assoc).
  destruct (lead_ok sp 4 y ((dash b ++ digits 2 m ++ dash b ++ digits 2 d) ++ rest) e Hs) as (A & B & C); [lia|]. cbv zeta in A, B, C. rewrite <- E in A, B, C.
  assert (C' : At row (Z.of_nat (length sp)) (date_text b y m d ++ rest)) by (exists sp; auto). repeat split; auto.
  - now apply (parse_ymd_ok row b y m d e _ rest).
  - now apply at_app.
Qed.

Lemma ParseDateTime_shape sp b y m d t c pad e : blank sp -> padding pad -> 0 <= y < 10000 -> two m -> two d -> clock_shape c ->
  exists e', ParseDateTime (sp ++ date_text b y m d ++ delim t :: clock_text c ++ pad) e =
    match YearToEpochNano y m d with Some r => Some ((if r <? 0 then 0 else if cl_good c then r + clock_nanos c else r), e') | None => None end /\ (has_seconds c \/ pad = [] -> e' = e).
Proof.
  intros Hs Hp Hy Hm Hd Hc. unfold ParseDateTime. destruct (datetime_head sp b y m d (delim t :: clock_text c ++ pad) e Hs Hy Hm Hd) as (A & B & C & D).
  cbv zeta in A, B, C, D. rewrite A, B, C. set (row := sp ++ _) in *. destruct (at_cons _ _ _ _ D) as (Ed & Ep & _ & D').
  destruct (clock_run row c e _ pad D' Hc Hp) as (s1 & ok & s2 & s3 & q & e' & E1 & E2 & Eg & Ef & Et & He). exists e'. split; [|exact He].
  destruct (YearToEpochNano_total y m d) as (r & -> & Hr).
  unfold parse_clock. cbn [fst]. rewrite Ep, Ed. replace (is_digit (delim t)) with false by (destruct t; reflexivity).
  replace ((delim t =? 84) || (delim t =? 32)) with true by (destruct t; reflexivity). unfold adv. cbn [fst snd]. rewrite E1, E2, Eg, Ef, Et. cbn [snd]. do 2 f_equal.
  pose proof (cl_value c Hc). destruct (Z.ltb_spec r 0), (Z.leb_spec 0 r), (cl_good c); cbn [andb]; lia.
Qed.

Lemma ParseDateTime_ok sp b y m d t c pad e : blank sp -> padding pad -> valid_date y m d -> clock_shape c -> clock_ok c ->
  exists e', ParseDateTime (sp ++ date_text b y m d ++ delim t :: clock_text c ++ pad) e = Some (nanos y m d + clock_nanos c, e') /\ (has_seconds c \/ pad = [] -> e' = e).
Proof.
  intros Hs Hp (Hy & Hm & Hd) Hc Ho. pose proof (month_days_31 y m). destruct (ParseDateTime_shape sp b y m d t c pad e) as (e' & E & He); auto; try (unfold two; lia).
  exists e'. split; auto. rewrite E, nanos_ok by lia. apply cl_good_ok in Ho. rewrite Ho. pose proof (nanos_nonneg y m d). replace (nanos y m d <? 0) with false by lia. reflexivity.
Qed.
Lemma ParseDateTime_bad sp b y m d t c pad e : blank sp -> padding pad -> 0 <= y < 10000 -> two m -> two d -> clock_shape c ->
  ~ (1970 <= y <= 2099 /\ 1 <= m <= 12 /\ 1 <= d <= 31) -> exists e', ParseDateTime (sp ++ date_text b y m d ++ delim t :: clock_text c ++ pad) e = Some (0, e').
Proof. intros Hs Hp Hy Hm Hd Hc N. destruct (ParseDateTime_shape sp b y m d t c pad e) as (e' & E & _); auto. rewrite nanos_bad in E by auto. eauto. Qed.

(** only a date *)
Lemma ParseDateTime_date sp b y m d pad e : blank sp -> padding pad -> valid_date y m d ->
  exists e', ParseDateTime (sp ++ date_text b y m d ++ pad) e = Some (nanos y m d, e') /\ (pad = [] -> e' = e).
Proof.
  intros Hs Hp (Hy & Hm & Hd). pose proof (month_days_31 y m). unfold ParseDateTime. destruct (datetime_head sp b y m d pad e Hs) as (A & B & C & D); try (unfold two; lia).
  cbv zeta in A, B, C, D. rewrite A, B, C. set (row := sp ++ _) in *. rewrite nanos_ok by lia. pose proof (nanos_nonneg y m d ltac:(lia)).
  replace (nanos y m d <? 0) with false by lia. replace (0 <=? nanos y m d) with true by lia. unfold parse_clock. cbn [fst]. destruct pad as [|c pad].
  - pose proof (at_nil _ _ D) as (Q & Q'). rewrite Q. cbn [andb]. unfold parse_fraction. cbn [fst]. rewrite Q. cbn [consume_trailing]. unfold at_end. cbn [fst]. rewrite Q'.
    exists e. split; auto. do 2 f_equal. lia.
  - destruct (padding_hd c pad Hp) as (Nx & N46 & N58 & Nd). destruct (at_cons _ _ _ _ D) as (-> & -> & _ & D'). rewrite Nx.
    assert (E : forall s : pst, fst s = Z.of_nat (length sp) + Z.of_nat (length (date_text b y m d)) -> exists e', ParseNumber row 2 (adv s) = Some (0, (Z.of_nat (length row), e'))).
    { intros [p0 e0] Es. cbn in Es. subst p0. unfold adv. cbn [fst snd]. apply (ParseNumber_none row pad Nd). exact D'. }
    match goal with |- context [ParseNumber row 2 (adv ?s)] => destruct (E s) as (e' & ->) end.
    { destruct (_ || _); reflexivity. }
    unfold parse_min_sec. rewrite (single_end row 58 e' (Z.of_nat (length row)) (at_n row)). cbn [andb Z.ltb Z.compare Pos.compare Pos.compare_cont].
    unfold parse_fraction. cbn [fst]. rewrite Z.ltb_irrefl, trailing_end. exists e'. split; [|discriminate]. cbn [snd]. do 2 f_equal. lia.
Qed.

(** no digit at all *)
Lemma ParseDate_none row e : plain row -> no_digit row -> exists e', ParseDate row e = Some (0, e').
Proof.
  intros Hp Hn. unfold ParseDate. destruct (leading_total row Hp (S (length row)) (0, e) (start_inb row e)) as (s0 & -> & H0); [cbn [fst]; lia|].
  destruct (at_end_total row s0 H0) as (b & -> & _). destruct b; [eauto|].
  assert (N : forall s mx, inb row s -> exists e', ParseNumber row mx s = Some (0, (Z.of_nat (length row), e'))).
  { intros [p er] mx (A & B). cbn [fst] in *. apply (ParseNumber_none row (skipn (Z.to_nat p) row)).
    - intros c Hc. apply Hn. rewrite <- (firstn_skipn (Z.to_nat p) row). apply in_or_app. auto.
    - exists (firstn (Z.to_nat p) row). rewrite firstn_skipn. split; auto. rewrite firstn_length. lia. }
  unfold parse_ymd. destruct (N s0 4 H0) as (e1 & ->). rewrite (single_end row 45 e1 _ (at_n row)).
  assert (I : forall e, inb row (Z.of_nat (length row), e)) by (intros; unfold inb; cbn; lia).
  destruct (N _ 2 (I e1)) as (e2 & ->). rewrite (single_end row 45 e2 _ (at_n row)). cbn [Bool.eqb]. destruct (N _ 2 (I e2)) as (e3 & ->).
  rewrite nanos_bad by lia. rewrite trailing_end. cbn. eauto.
Qed.

(** ** All rows *)
Lemma parse_rows_err parse rows : forall i p, (forall row, In row rows -> exists t e, parse row None = Some (t, e)) ->
  exists ts, parse_rows parse rows i (Some p) = Some (ts, Some p) /\ Forall2 (fun row t => exists e, parse row None = Some (t, e)) rows ts.
Proof.
  induction rows as [|row rows IH]; intros i p H; [exists []; auto|]. cbn [parse_rows]. destruct (H row) as (t & e & E); [cbn; auto|]. rewrite E.
  destruct (IH (S i) p) as (ts & -> & F); [intros; apply H; cbn; auto|]. exists (t :: ts). split; auto. constructor; eauto.
Qed.
Lemma parse_rows_ok parse rows : forall i, (forall row, In row rows -> exists t e, parse row None = Some (t, e)) ->
  exists ts err, parse_rows parse rows i None = Some (ts, err) /\ Forall2 (fun row t => exists e, parse row None = Some (t, e)) rows ts /\
    (forall j p, err = Some (j, p) <-> exists k row t, j = (i + k)%nat /\ nth_error rows k = Some row /\ parse row None = Some (t, Some p) /\
      forall k' row', (k' < k)%nat -> nth_error rows k' = Some row' -> exists t', parse row' None = Some (t', None)).
Proof.
  induction rows as [|row rows IH]; intros i H.
  - exists [], None. split; auto. split; [constructor|]. intros j p. split; [discriminate|]. intros (k & row & t & _ & C & _). destruct k; discriminate.
  - cbn [parse_rows]. destruct (H row) as (t & e & E); [cbn; auto|]. rewrite E. destruct e as [p|].
    + destruct (parse_rows_err parse rows (S i) (i, p)) as (ts & -> & F); [intros; apply H; cbn; auto|]. exists (t :: ts), (Some (i, p)). split; auto. split; [constructor; eauto|].
      intros j q. split.
      * intros [= <- <-]. exists 0%nat, row, t. splits; auto; try lia.
      * intros (k & row1 & t1 & -> & A & B & C). destruct k as [|k].
        -- cbn in A. injection A as <-. rewrite E in B. injection B as <- <-. f_equal. f_equal. lia.
        -- destruct (C 0%nat row) as (t' & E'); [lia|reflexivity|]. congruence.
    + destruct (IH (S i)) as (ts & err & -> & F & He); [intros; apply H; cbn; auto|]. exists (t :: ts), err. split; auto. split; [constructor; eauto|].
      intros j q. rewrite He. split.
      * intros (k & row1 & t1 & -> & A & B & C). exists (S k), row1, t1. splits; auto; try lia. intros k' row' L Q. destruct k' as [|k']; cbn in Q.
        -- injection Q as <-. eauto.
        -- apply (C k'); auto. lia.
      * intros (k & row1 & t1 & -> & A & B & C). destruct k as [|k].
        -- cbn in A. injection A as <-. congruence.
        -- exists k, row1, t1. splits; auto; try lia. intros k' row' L Q. apply (C (S k')); auto. lia.
Qed.

(** ** strptime *)
Lemma strptime_whole row t stop c : nth_error (row ++ [0]) (Z.to_nat stop) = Some c -> 0 <= stop -> c <> 46 -> tm_year t <> 0 ->
  valid_date (tm_year t + 1900) (tm_mon t + 1) (tm_mday t) -> 0 <= tm_hour t -> 0 <= tm_min t -> 0 <= tm_sec t ->
  strptime_row row (Some (t, stop)) = Some (nanos (tm_year t + 1900) (tm_mon t + 1) (tm_mday t) + 1000000000 * (tm_hour t * 3600 + tm_min t * 60 + tm_sec t)).
Proof.
  intros Hc H0 N46 Ny (Hy & Hm & Hd) Hh Hmi Hs. pose proof (month_days_31 (tm_year t + 1900) (tm_mon t + 1)). unfold strptime_row. replace (tm_year t =? 0) with false by lia.
  rewrite nanos_ok by lia. rewrite zrd_some by auto. rewrite Hc. replace (c =? 46) with false by lia. pose proof (nanos_nonneg (tm_year t + 1900) (tm_mon t + 1) (tm_mday t)).
  match goal with |- context [0 <=? ?r] => replace (0 <=? r) with true by lia end. reflexivity.
Qed.
Lemma strptime_total row t stop : 0 <= stop <= Z.of_nat (length row) -> exists r, strptime_row row (Some (t, stop)) = Some r /\ 0 <= r.
Proof.
  intros H. unfold strptime_row. destruct (tm_year t =? 0); [exists 0; split; [auto|lia]|]. destruct (YearToEpochNano_total (tm_year t + 1900) (tm_mon t + 1) (tm_mday t)) as (y & -> & _).
  destruct (nth_error_lt (row ++ [0]) (Z.to_nat stop)) as (c & E); [rewrite app_length; cbn; lia|]. rewrite zrd_some by lia. rewrite E. destruct (Z.eqb_spec c 46) as [->|N].
  - assert (L : stop < Z.of_nat (length row)).
    { destruct (Z.eq_dec stop (Z.of_nat (length row))) as [->|]; [|lia]. rewrite Nat2Z.id, nth_error_app2, Nat.sub_diag in E by lia. discriminate. }
    unfold ParseDecimal. destruct (take_total row 9 (S (length row)) 0 0 (stop + 1, None)) as (v & k & s & -> & _); try lia; [unfold inb; cbn [fst]; lia|cbn [fst]; lia|].
    eexists. split; [reflexivity|]. destruct (Z.leb_spec 0 (y + 1000000000 * (tm_hour t * 3600 + tm_min t * 60 + tm_sec t) + pad9 v k)); lia.
  - eexists. split; [reflexivity|]. destruct (Z.leb_spec 0 (y + 1000000000 * (tm_hour t * 3600 + tm_min t * 60 + tm_sec t))); lia.
Qed.

Lemma parse_rows_all parse rows : parse = ParseDate \/ parse = ParseTime \/ parse = ParseDateTime -> (forall row, In row rows -> plain row) ->
  exists ts err, parse_rows parse rows 0 None = Some (ts, err) /\ Forall2 (fun row t => exists e, parse row None = Some (t, e)) rows ts /\
    (forall j p, err = Some (j, p) <-> exists row t, nth_error rows j = Some row /\ parse row None = Some (t, Some p) /\
      forall k row', (k < j)%nat -> nth_error rows k = Some row' -> exists t', parse row' None = Some (t', None)).
Proof.
  intros Hp Hr. destruct (parse_rows_ok parse rows 0) as (ts & err & E & F & He).
  - intros row Hi. specialize (Hr row Hi). destruct Hp as [->|[-> | ->]].
    + destruct (ParseDate_total row None Hr) as (t & e & Q & _). eauto.
    + destruct (ParseTime_total row None Hr) as (t & e & Q & _). eauto.
    + destruct (ParseDateTime_total row None Hr) as (t & e & Q & _). eauto.
  - exists ts, err. split; auto. split; auto. intros j p. rewrite He. split.
    + intros (k & row & t & -> & A & B & C). cbn [Nat.add]. eauto.
    + intros (row & t & A & B & C). exists j, row, t. auto.
Qed.
