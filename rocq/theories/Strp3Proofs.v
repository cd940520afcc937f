From Coq Require Import Ascii String.
From Verif Require Import Base Mem MemLemmas DateModel DateSpec DateProofs StrpModel StrpSpec StrpProofs Strp2Proofs.
Import ListNotations.
Local Open Scope Z_scope.

(** ** Characters *)
Definition plain_char (c : Z) : Prop := 0 < c < 256.
Lemma case_char n x : Forall (fun c => letter c = true) n -> any_case n x -> Forall plain_char x.
Proof.
  unfold any_case. intros H. revert x. induction H as [|a n L H IH]; intros [|b x] E; try discriminate; constructor; cbn [map] in E.
  - injection E as E _. unfold letter, lower, plain_char in *. destruct ((65 <=? a) && (a <=? 90)) eqn:E1, ((65 <=? b) && (b <=? 90)) eqn:E2; lia.
  - injection E as _ E. auto.
Qed.
Lemma letters_of names n : forallb (forallb letter) names = true -> In n names -> Forall (fun c => letter c = true) n.
Proof. intros H I. rewrite forallb_forall in H. specialize (H n I). rewrite forallb_forall in H. now apply Forall_forall. Qed.
Lemma digits_plain k v : Forall plain_char (digits k v).
Proof. apply Forall_forall. intros c I. apply digits_digit in I. unfold plain_char. lia. Qed.
Lemma spaces_plain ws : spaces ws -> Forall plain_char ws.
Proof. intros H. eapply Forall_impl; [|exact H]. intros c E. unfold space in E. unfold plain_char. cbn in E. lia. Qed.
Lemma part_plain m t next : part_ok m t next -> Forall plain_char (tok_text m t).
Proof.
  destruct t as [c | | w ws | w ws | fl | c tx | c tx | tx | c kk v | c b]; cbn [part_ok tok_text]; intros P.
  - constructor; [unfold plain_char; lia|constructor].
  - repeat constructor.
  - apply spaces_plain, P.
  - apply spaces_plain, P.
  - destruct fl; cbn [field_text]; try apply digits_plain. apply Forall_app. split; apply digits_plain.
  - destruct P as (_ & _ & names & n & O & E & A). eapply case_char; [|exact A]. apply nth_error_In in E. destruct O as [-> | ->]; (eapply letters_of; [|exact E]; vm_compute; reflexivity).
  - destruct P as (_ & _ & n & O & A). eapply case_char; [|exact A]. destruct O as [O | O]; (eapply letters_of; [|exact O]; vm_compute; reflexivity).
  - destruct P as (n & E & A). eapply case_char; [|exact A]. apply nth_error_In in E. eapply letters_of; [|exact E]. vm_compute. reflexivity.
  - apply digits_plain.
  - destruct P.
Qed.
Lemma parts_plain m ts tail : parts_ok m ts tail -> Forall plain_char (texts m ts).
Proof. unfold texts. induction ts as [|t ts IH]; cbn [parts_ok flat_map]; intros P; [constructor|]. apply Forall_app. split; [eapply part_plain, P|apply IH, P]. Qed.
Lemma parts_in m ts tail t : parts_ok m ts tail -> In t ts -> exists next, part_ok m t next.
Proof. induction ts as [|t' ts IH]; cbn [parts_ok In]; intros P []; [subst; eexists; apply P|apply IH; tauto]. Qed.
Definition nonzero (c : Z) : Prop := c <> 0.
Lemma part_fmt m t next : part_ok m t next -> Forall nonzero (tok_fmt t).
Proof.
  destruct t as [c | | w ws | w ws | fl | c tx | c tx | tx | c kk v | c b]; cbn [part_ok tok_fmt]; intros P.
  - constructor; [unfold nonzero; lia|constructor].
  - repeat constructor; discriminate.
  - constructor; [|constructor]. intros ->. destruct P as (P & _). discriminate.
  - constructor; [discriminate|]. constructor; [|constructor]. intros ->. destruct P as ([P | P] & _); discriminate P.
  - destruct fl; repeat constructor; discriminate.
  - constructor; [discriminate|]. constructor; [|constructor]. intros ->. destruct P as ([P | [P | P]] & _); discriminate P.
  - constructor; [discriminate|]. constructor; [|constructor]. intros ->. destruct P as ([P | P] & _); discriminate P.
  - repeat constructor; discriminate.
  - constructor; [discriminate|]. constructor; [|constructor]. intros ->. destruct P as (a & b & P & _); discriminate P.
  - destruct P.
Qed.
Lemma fmts_nonzero m ts tail : Forall (groups_ok 2) ts -> parts_ok m (flat_map flat ts) tail -> Forall nonzero (fmts ts).
Proof.
  intros G P. assert (H : forall t, In t ts -> Forall nonzero (tok_fmt t)).
  { intros t I. destruct t as [c | | w ws | w ws | fl | c tx | c tx | tx | c kk v | c b];
      try (match goal with I : In ?t ts |- _ => destruct (parts_in m (flat_map flat ts) tail t P) as (next & Q); [apply in_flat_map; exists t; split; [exact I|left; reflexivity]|eapply part_fmt; exact Q] end).
    rewrite Forall_forall in G. specialize (G _ I). destruct G as [E _]. cbn [tok_fmt]. constructor; [discriminate|]. constructor; [|constructor]. intros ->. discriminate E. }
  unfold fmts. induction ts as [|t ts IH]; [constructor|]. cbn [flat_map]. apply Forall_app. split; [apply H; cbn; auto|].
  inversion G; subst. cbn [flat_map] in P. apply parts_app in P as [_ P]. apply IH; auto. intros u I. apply H. cbn. auto.
Qed.
Lemma before_zero_app a b : Forall nonzero a -> before_zero (a ++ b) = a ++ before_zero b.
Proof. intros H. induction H as [|c a N H IH]; auto. cbn. destruct (Z.eqb_spec c 0); [now elim N|]. now rewrite IH. Qed.
Lemma before_zero_id a : Forall nonzero a -> before_zero a = a.
Proof. intros H. rewrite <- (app_nil_r a) at 1. rewrite before_zero_app by auto. cbn. apply app_nil_r. Qed.
Lemma bytes_id l : bytes l -> map (fun c => c mod 256) l = l.
Proof. intros H. induction H as [|c l B H IH]; auto. cbn [map]. rewrite IH, Z.mod_small by lia. reflexivity. Qed.

(** ** Rows *)
Lemma row_go m ts tail : in_range m -> tells ts m (before_zero tail) -> bytes tail ->
  StrptimeToNanos (fmts ts) (texts m ts ++ tail) =
  strptime_row (texts m ts ++ tail) (Some ({| tm_year := year m - 1900; tm_mon := month m - 1; tm_mday := mday m; tm_hour := hour m; tm_min := minute m; tm_sec := second m |}, Z.of_nat (length (texts m ts)))).
Proof.
  intros R T B. unfold StrptimeToNanos. destruct (strptime_ok m ts (before_zero tail) R T) as (sp & E). destruct T as (G & P & _).
  pose proof (parts_plain _ _ _ P) as PL. rewrite (texts_flat m 2 ts G) in PL.
  rewrite bytes_id by (apply Forall_app; split; [eapply Forall_impl; [|exact PL]; unfold plain_char; cbn; lia|exact B]).
  rewrite (before_zero_id (fmts ts)) by (eapply fmts_nonzero; eauto).
  rewrite before_zero_app by (eapply Forall_impl; [|exact PL]; unfold plain_char, nonzero; cbn; lia).
  rewrite E. do 3 f_equal. rewrite app_length. lia.
Qed.
Lemma row_ok m ts tail : in_range m -> tells ts m (before_zero tail) -> bytes tail -> peek tail <> 46 ->
  StrptimeToNanos (fmts ts) (texts m ts ++ tail) = Some (nanos (year m) (month m) (mday m) + time_of_day m).
Proof.
  intros R T B N. rewrite row_go by auto. destruct R as (D & H1 & H2 & H3). rewrite (strptime_whole _ _ _ (peek tail)); cbn [tm_year tm_mon tm_mday tm_hour tm_min tm_sec].
  - unfold time_of_day. rewrite !Z.sub_add. reflexivity.
  - rewrite Nat2Z.id, <- app_assoc, nth_error_app2, Nat.sub_diag by lia. destruct tail; reflexivity.
  - lia.
  - auto.
  - destruct D. lia.
  - now rewrite !Z.sub_add.
  - lia.
  - lia.
  - lia.
Qed.
Lemma fraction_ok m ts k f rest : in_range m -> tells ts m (before_zero (46 :: digits k f ++ rest)) -> bytes rest -> (1 <= k <= 9)%nat -> 0 <= f < 10 ^ Z.of_nat k ->
  k = 9%nat \/ is_digit (peek rest) = false ->
  StrptimeToNanos (fmts ts) (texts m ts ++ 46 :: digits k f ++ rest) = Some (nanos (year m) (month m) (mday m) + time_of_day m + f * 10 ^ (9 - Z.of_nat k)).
Proof.
  intros R T B Hk Hf Hr. rewrite row_go; auto.
  2: { constructor; [lia|]. apply Forall_app. split; auto. eapply Forall_impl; [|apply digits_plain]. unfold plain_char. cbn. lia. }
  destruct R as ((Dy & Dm & Dd) & H1 & H2 & H3). pose proof (month_days_31 (year m) (month m)).
  set (row := texts m ts ++ 46 :: digits k f ++ rest). unfold strptime_row. cbn [tm_year tm_mon tm_mday tm_hour tm_min tm_sec].
  replace (year m - 1900 =? 0) with false by lia. rewrite !Z.sub_add, nanos_ok by lia.
  assert (A : At row (Z.of_nat (length (texts m ts))) (46 :: digits k f ++ rest)) by (exists (texts m ts); auto).
  destruct (at_cons _ _ _ _ A) as (E & _ & _ & A').
  assert (zrd (row ++ [0]) (Z.of_nat (length (texts m ts))) = Some 46) as ->.
  { rewrite zrd_some, Nat2Z.id by lia. unfold row. rewrite <- app_assoc, nth_error_app2, Nat.sub_diag by lia. reflexivity. }
  cbn [Z.eqb Pos.eqb]. unfold ParseDecimal. rewrite (take_digits_ok row 9 None (digits k f) _ 0 0 _ rest); auto.
  - rewrite length_digits, value_digits by auto. rewrite Z.mul_0_l, !Z.add_0_l, pad9_ok by auto.
    pose proof (nanos_nonneg (year m) (month m) (mday m)). assert (0 <= f * 10 ^ (9 - Z.of_nat k)) by (apply Z.mul_nonneg_nonneg; [lia|]; apply Z.pow_nonneg; lia).
    unfold time_of_day. match goal with |- context [0 <=? ?r] => replace (0 <=? r) with true by lia end. reflexivity.
  - apply digits_digit.
  - pose proof (at_len _ _ _ A') as L. rewrite app_length in L. lia.
  - lia.
  - rewrite length_digits. destruct (Nat.eq_dec k 9) as [->|Nk].
    + left. split; [reflexivity|]. intros C. apply (f_equal (@length Z)) in C. rewrite length_digits in C. discriminate.
    + right. split; [lia|]. destruct Hr as [Hr | Hr]; [lia|]. destruct rest as [|x rest]; auto. right. eauto.
Qed.

(** ** Any text and any format *)
Definition safe (r : res) (bp : list Z) : Prop := match r with Over => False | Fail => True | Go _ _ rest => (length rest <= length bp)%nat end.
Lemma skip_space_len bp : (length (skip_space bp) <= length bp)%nat.
Proof. induction bp as [|c bp IH]; cbn; auto. destruct (space c); cbn; lia. Qed.
Lemma conv_loop_len u : forall buf r rl, (length (snd (conv_loop u buf r rl)) <= length buf)%nat.
Proof.
  induction buf as [|c buf IH]; intros r rl; cbn [conv_loop]; [cbn; lia|]. match goal with |- context [if ?b then _ else _] => destruct b end; cbn [snd length]; [|lia].
  specialize (IH (r * 10 + (c - 48)) (rl / 10)). lia.
Qed.
Lemma num_safe bp a b K : (forall i r, (length r <= length bp)%nat -> safe (K i r) bp) -> safe (num bp a b K) bp.
Proof.
  intros H. unfold num, conv_num. destruct (is_digit (peek bp)); cbn; auto. pose proof (conv_loop_len b bp 0 b) as L. destruct (conv_loop b bp 0 b) as [v r]. cbn [snd] in L.
  destruct ((v <? a) || (v >? b)); cbn; auto.
Qed.
Lemma match_len n : forall bp r, match_name n bp = Some r -> (length r <= length bp)%nat.
Proof. induction n as [|a n IH]; intros [|c bp] r E; cbn in E; try discriminate; try (injection E as <-; auto; fail). destruct (lower a =? lower c); [|discriminate]. apply IH in E. cbn. lia. Qed.
Lemma find_from_len names : forall i bp j r, find_from i names bp = Some (j, r) -> (length r <= length bp)%nat.
Proof.
  induction names as [|n names IH]; intros i bp j r E; cbn in E; [discriminate|]. destruct (match_name n bp) eqn:M; [injection E as <- <-; eapply match_len; eauto|eauto].
Qed.
Lemma find_len bp n1 n2 j r : find_string bp n1 n2 = Some (j, r) -> (length r <= length bp)%nat.
Proof. unfold find_string. destruct (find_from 0 n1 bp) as [[]|] eqn:E; intros H; [injection H as <- <-|]; eapply find_from_len; eauto. Qed.
Lemma legal_safe x a r bp : safe r bp -> safe (legal x a r) bp.
Proof. unfold legal. destruct (_ =? _); cbn; auto. Qed.
Lemma tl_len (l : list Z) : (length (tl l) <= length l)%nat.
Proof. destruct l; cbn; lia. Qed.
Lemma offset_len : forall bp i o, (length (snd (offset_digits bp i o)) <= length bp)%nat.
Proof.
  induction bp as [|c bp IH]; intros i o; cbn [offset_digits]; destruct (i <? 4); cbn [snd length]; try lia.
  destruct (is_digit c); [specialize (IH (i + 1) (o * 10 + (c - 48))); lia|]. destruct ((i =? 2) && (c =? ch ":")); [specialize (IH i o); lia|cbn [snd length]; lia].
Qed.
Lemma zone_offset_safe t s bp : safe (zone_offset t s bp) bp.
Proof.
  unfold zone_offset. pose proof (offset_len bp 0 0) as L. destruct (offset_digits bp 0 0) as [[i o] r]. cbn [snd] in L. destruct (i =? 2); cbn; auto. destruct (i =? 4); cbn; auto. destruct (60 <=? o mod 100); cbn; auto.
Qed.
Lemma safe_le r a b : safe r a -> (length a <= length b)%nat -> safe r b.
Proof. destruct r; cbn; auto. lia. Qed.
Lemma zone_safe t s bp0 : safe (zone t s bp0) bp0.
Proof.
  apply (safe_le _ (skip_space bp0)); [|apply skip_space_len]. unfold zone. set (bp := skip_space bp0). pose proof (tl_len bp) as L1. pose proof (tl_len (tl bp)) as L2. pose proof (tl_len (tl (tl bp))) as L3.
  destruct (peek bp =? ch "G"); [destruct (_ && _); cbn; lia|].
  destruct (peek bp =? ch "U"); [destruct (_ =? _); cbn; lia|].
  destruct (peek bp =? ch "Z"); [cbn; lia|].
  destruct (peek bp =? ch "+"); [eapply safe_le; [apply zone_offset_safe|lia]|].
  destruct (peek bp =? ch "-"); [eapply safe_le; [apply zone_offset_safe|lia]|].
  destruct (find_string bp nast []) as [[]|] eqn:E; [apply find_len in E; cbn; lia|].
  destruct (find_string bp nadt []) as [[]|] eqn:E2; [apply find_len in E2; cbn; lia|].
  destruct (_ || _); cbn; lia.
Qed.
Section Safe.
  Context (again : list Z -> tm -> list Z -> res) (Hagain : forall fmt t bp, week_year fmt = false -> safe (again fmt t bp) bp).
  Lemma recurse_safe s t sp bp : week_year (str s) = false -> safe (recurse again s t sp bp) bp.
  Proof using Hagain. intros W. unfold recurse. pose proof (Hagain (str s) t bp W) as H. destruct (again (str s) t bp); cbn in *; auto. Qed.
  Lemma exec_safe alt c t sp bp : c <> ch "G" -> safe (exec again alt c t sp bp) bp.
  Proof using Hagain.
    intros N. unfold exec. pose proof (tl_len bp) as L1. pose proof (tl_len (tl bp)) as L2. pose proof (tl_len (tl (tl bp))) as L3.
    assert (F : forall n1 n2 K, (forall i r, (length r <= length bp)%nat -> safe (K i r) bp) -> safe (match find_string bp n1 n2 with Some (i, r) => K i r | None => Fail end) bp).
    { intros n1 n2 K H. destruct (find_string bp n1 n2) as [[i r]|] eqn:E; cbn; auto. apply H. eapply find_len; eauto. }
    apply Z.eqb_neq in N. rewrite N.
    repeat match goal with |- safe (if ?b then _ else _) bp => destruct b end; try apply legal_safe; try (apply recurse_safe; vm_compute; reflexivity);
      try (apply num_safe; intros; cbn; assumption); try apply zone_safe; try (cbn; auto; lia); try (cbn; apply skip_space_len).
  Qed.
  Lemma run_safe : forall l fmt t sp bp, (length fmt <= l)%nat -> week_year fmt = false -> safe (run again fmt t sp bp) bp.
  Proof using Hagain.
    induction l as [|l IH]; intros fmt t sp bp Hl W; destruct fmt as [|c f1]; cbn [run]; try (cbn; lia); [cbn in Hl; lia|]. cbn [length] in Hl. cbn [week_year] in W.
    destruct (space c) eqn:SP.
    { assert (week_year f1 = false) by (destruct (Z.eqb_spec c (ch "%")); [subst; discriminate SP|exact W]). eapply safe_le; [apply IH; [lia|auto]|apply skip_space_len]. }
    destruct (c =? ch "%"); cbn [negb].
    - destruct f1 as [|d f2]; [exact I|]. destruct ((d =? ch "E") || (d =? ch "O")).
      + destruct f2 as [|e f3]; [exact I|]. apply orb_false_iff in W as [W1 W2]. apply Z.eqb_neq in W1.
        pose proof (exec_safe (if d =? ch "E" then ALT_E else ALT_O) e t sp bp W1) as S. destruct (exec again _ e t sp bp) as [| |t' s' r]; auto. cbn in S. eapply safe_le; [apply IH; [cbn in Hl; lia|auto]|lia].
      + apply orb_false_iff in W as [W1 W2]. apply Z.eqb_neq in W1.
        pose proof (exec_safe 0 d t sp bp W1) as S. destruct (exec again 0 d t sp bp) as [| |t' s' r]; auto. cbn in S. eapply safe_le; [apply IH; [cbn in Hl; lia|auto]|lia].
    - destruct (peek bp =? c); [|exact I]. eapply safe_le; [apply IH; [lia|auto]|apply tl_len].
  Qed.
End Safe.
Lemma strptime_safe n : forall fmt t bp, week_year fmt = false -> safe (strptime_n n fmt t bp) bp.
Proof. induction n as [|n IH]; intros fmt t bp W; cbn [strptime_n]; [exact I|]. eapply run_safe; eauto. Qed.
Lemma before_zero_len l : (length (before_zero l) <= length l)%nat.
Proof. induction l as [|c l IH]; cbn; auto. destruct (c =? 0); cbn; lia. Qed.
Lemma nanos_safe fmt row : week_year (before_zero fmt) = false -> exists r, StrptimeToNanos fmt row = Some r /\ 0 <= r.
Proof.
  intros W. unfold StrptimeToNanos. set (temp := map (fun c => c mod 256) row). pose proof (strptime_safe 3 (before_zero fmt) tm0 (before_zero temp) W) as S.
  unfold rt_strptime. pose proof (before_zero_len temp). destruct (strptime_n 3 (before_zero fmt) tm0 (before_zero temp)) as [| |t s r]; [exists 0; cbn; split; [auto|lia]|destruct S|].
  cbn in S. apply strptime_total. lia.
Qed.
