From Coq Require Import Ascii String.
From Verif Require Import Base Mem MemLemmas DateModel DateSpec DateProofs StrpModel StrpSpec.
Import ListNotations.
Local Open Scope Z_scope.

(** ** Numbers *)
Lemma digits_head k : forall w, 0 <= w < 10 ^ Z.of_nat (S k) -> digits (S k) w = 48 + w / 10 ^ Z.of_nat k :: digits k (w mod 10 ^ Z.of_nat k).
Proof.
  induction k as [|k IH]; intros w H.
  - cbn in H |- *. rewrite Z.div_1_r, Z.mod_small by lia. reflexivity.
  - set (K := 10 ^ Z.of_nat k) in *. assert (P : 10 ^ Z.of_nat (S k) = 10 * K) by (rewrite Nat2Z.inj_succ, Z.pow_succ_r by lia; reflexivity).
    assert (P2 : 10 ^ Z.of_nat (S (S k)) = 10 * (10 * K)) by (rewrite Nat2Z.inj_succ, Z.pow_succ_r by lia; now rewrite P).
    assert (KP : 0 < K) by (apply Z.pow_pos_nonneg; lia). rewrite P in *. rewrite P2 in H.
    change (digits (S (S k)) w) with (digits (S k) (w / 10) ++ [48 + w mod 10]). rewrite IH by (split; [apply Z.div_pos; lia|apply Z.div_lt_upper_bound; lia]).
    change (digits (S k) (w mod (10 * K))) with (digits k (w mod (10 * K) / 10) ++ [48 + (w mod (10 * K)) mod 10]). cbn [app]. f_equal.
    + rewrite Z.div_div by lia. reflexivity.
    + rewrite Z.rem_mul_r by lia. f_equal.
      * f_equal. rewrite (Z.mul_comm 10), Z.div_add by lia. rewrite (Z.div_small (w mod 10)) by (apply Z.mod_pos_bound; lia). lia.
      * f_equal. f_equal. rewrite (Z.mul_comm 10), Z.mod_add by lia. now rewrite Z.mod_mod by lia.
Qed.
Lemma pow10 k : 10 ^ Z.of_nat (S k) = 10 * 10 ^ Z.of_nat k.
Proof. rewrite Nat2Z.inj_succ, Z.pow_succ_r by lia. reflexivity. Qed.
Lemma pow10_pos k : 0 < 10 ^ Z.of_nat k.
Proof. apply Z.pow_pos_nonneg; lia. Qed.
Lemma conv_loop_ok ulim next v : forall j w r rl, 0 <= r -> r * 10 ^ Z.of_nat (S j) + w = v -> 0 <= w < 10 ^ Z.of_nat (S j) -> 10 ^ Z.of_nat j <= rl < 10 ^ Z.of_nat (S j) -> v <= ulim ->
  conv_loop ulim (digits (S j) w ++ next) r rl = (v, next).
Proof.
  induction j as [|j IH]; intros w r rl Hr E Hw Hl Hv; rewrite digits_head by auto; cbn [app conv_loop].
  - change (10 ^ Z.of_nat 1) with 10 in *. change (10 ^ Z.of_nat 0) with 1 in *. rewrite Z.div_1_r. cbn [digits app]. replace (rl / 10) with 0 by (symmetry; apply Z.div_small; lia). rewrite andb_false_r. cbn [andb]. f_equal. lia.
  - set (K := 10 ^ Z.of_nat (S j)) in *. assert (KP : 0 < K) by apply pow10_pos. rewrite (pow10 (S j)) in *. fold K in E, Hw, Hl.
    pose proof (Z.div_mod w K ltac:(lia)) as DM. pose proof (Z.mod_pos_bound w K KP) as MB. assert (0 <= w / K < 10) as DB by (split; [apply Z.div_pos; lia|apply Z.div_lt_upper_bound; lia]).
    replace (r * 10 + (48 + w / K - 48)) with (r * 10 + w / K) by lia.
    assert (T1 : ((r * 10 + w / K) * 10 <=? ulim) = true).
    { apply Z.leb_le. assert (10 <= K) by (unfold K; rewrite pow10; pose proof (pow10_pos j); lia). nia. }
    assert (T2 : negb (rl / 10 =? 0) = true).
    { assert (1 <= rl / 10) by (apply Z.div_le_lower_bound; [lia|]; unfold K in Hl; rewrite pow10 in Hl; pose proof (pow10_pos j); lia). lia. }
    assert (T3 : is_digit (peek (digits (S j) (w mod K) ++ next)) = true).
    { rewrite digits_head by (fold K; lia). cbn [app peek hd]. apply is_digit_iff.
      assert (0 <= w mod K / 10 ^ Z.of_nat j < 10) by (pose proof (pow10_pos j); split; [apply Z.div_pos; lia|apply Z.div_lt_upper_bound; [lia|]; unfold K in MB |- *; rewrite pow10 in MB |- *; lia]). lia. }
    rewrite T1, T2, T3. cbn [andb]. apply IH; auto; try lia; fold K.
    split; [apply Z.div_le_lower_bound; [lia|]; unfold K in Hl; rewrite pow10 in Hl; lia|apply Z.div_lt_upper_bound; lia].
Qed.
Lemma conv_num_ok j v llim ulim next : llim <= v <= ulim -> 0 <= v -> 10 ^ Z.of_nat j <= ulim < 10 ^ Z.of_nat (S j) -> conv_num (digits (S j) v ++ next) llim ulim = Some (v, next).
Proof.
  intros H H0 Hu. unfold conv_num. rewrite (conv_loop_ok ulim next v) by (auto; lia).
  assert (is_digit (peek (digits (S j) v ++ next)) = true) as ->.
  { rewrite digits_head by lia. cbn [app peek hd]. apply is_digit_iff. pose proof (pow10_pos j).
    assert (0 <= v / 10 ^ Z.of_nat j < 10) by (split; [apply Z.div_pos; lia|apply Z.div_lt_upper_bound; [lia|]; rewrite pow10 in Hu; lia]). lia. }
  replace (v <? llim) with false by lia. rewrite Z.gtb_ltb. replace (ulim <? v) with false by lia. reflexivity.
Qed.

(** ** Spaces *)
Lemma skip_space_ok ws next : spaces ws -> no_space next -> skip_space (ws ++ next) = next.
Proof.
  intros S N. induction S as [|c ws H S IH]; cbn [app skip_space]; [|now rewrite H]. destruct next as [|c r]; auto. cbn. unfold no_space in N. cbn in N. now rewrite N.
Qed.

(** ** Names *)
Fixpoint nomatch (n x : list Z) : bool :=
  match n, x with [], _ => false | a :: _, [] => letter a | a :: n', b :: x' => if lower a =? lower b then nomatch n' x' else true end.
Lemma lower_letter a c : letter a = true -> letter c = false -> (lower a =? lower c) = false.
Proof. unfold letter, lower. intros A C. destruct ((65 <=? a) && (a <=? 90)) eqn:E1, ((65 <=? c) && (c <=? 90)) eqn:E2; try lia. Qed.
Lemma nomatch_ok n : forall x r, nomatch n x = true -> no_letter r -> match_name n (x ++ r) = None.
Proof.
  induction n as [|a n IH]; intros [|b x] r H N; cbn [nomatch app match_name] in *; try discriminate.
  - destruct r as [|c r]; auto. rewrite lower_letter; auto.
  - destruct (lower a =? lower b); auto.
Qed.
Lemma nomatch_case n : forall x y, map lower x = map lower y -> nomatch n x = nomatch n y.
Proof.
  induction n as [|a n IH]; intros [|b x] [|c y] E; cbn [map nomatch] in *; try discriminate; auto. injection E as E1 E2. rewrite E1. destruct (lower a =? lower c); auto.
Qed.
Lemma match_case n : forall x r, any_case n x -> match_name n (x ++ r) = Some r.
Proof.
  unfold any_case. induction n as [|a n IH]; intros [|b x] r E; cbn [map app match_name] in *; try discriminate; auto. injection E as E1 E2. rewrite E1, Z.eqb_refl. auto.
Qed.
Lemma find_none names n x r : forallb (fun n' => nomatch n' n) names = true -> any_case n x -> no_letter r -> forall i, find_from i names (x ++ r) = None.
Proof.
  intros F A N. induction names as [|a names IH]; intros i; cbn [forallb find_from] in *; auto. apply andb_true_iff in F as [F1 F2].
  rewrite nomatch_ok; auto. now rewrite (nomatch_case a x n).
Qed.
Lemma find_first x r n : any_case n x -> no_letter r -> forall names j i, nth_error names j = Some n -> forallb (fun n' => nomatch n' n) (firstn j names) = true -> find_from i names (x ++ r) = Some (i + Z.of_nat j, r).
Proof.
  intros A N. induction names as [|a names IH]; intros [|j] i E F; try discriminate; cbn [nth_error find_from firstn forallb] in *.
  - injection E as ->. rewrite match_case by auto. do 2 f_equal. lia.
  - apply andb_true_iff in F as [F1 F2]. rewrite nomatch_ok; auto; [|now rewrite (nomatch_case a x n)]. rewrite (IH j) by auto. do 2 f_equal. lia.
Qed.
(* every name against the names before it *)
Fixpoint unclear (names : list (list Z)) : bool := match names with [] => true | n :: r => forallb (fun n' => nomatch n n') r && unclear r end.
Lemma unclear_first names : unclear names = true -> forall j n, nth_error names j = Some n -> forallb (fun n' => nomatch n' n) (firstn j names) = true.
Proof.
  induction names as [|a names IH]; intros U [|j] n E; try discriminate; cbn [nth_error firstn forallb unclear] in *; auto.
  apply andb_true_iff in U as [U1 U2]. rewrite forallb_forall in U1. rewrite (U1 n) by (eapply nth_error_In; eauto). cbn [andb]. apply IH; auto.
Qed.
Lemma mon_clear : unclear mon = true. Proof. vm_compute. reflexivity. Qed.
Lemma abmon_clear : unclear abmon = true. Proof. vm_compute. reflexivity. Qed.
Lemma day_clear : unclear day = true. Proof. vm_compute. reflexivity. Qed.
Lemma abday_clear : unclear abday = true. Proof. vm_compute. reflexivity. Qed.
Lemma find_month j n x r names : names = mon \/ names = abmon -> nth_error names j = Some n -> any_case n x -> no_letter r -> find_string (x ++ r) mon abmon = Some (Z.of_nat j, r).
Proof.
  intros O E A N. unfold find_string. destruct O as [-> | ->].
  - now rewrite (find_first x r n A N mon j 0 E (unclear_first _ mon_clear j n E)).
  - destruct (Nat.eq_dec j 4) as [-> | NJ].
    + assert (E' : nth_error mon 4 = Some n) by exact E. now rewrite (find_first x r n A N mon 4 0 E' (unclear_first _ mon_clear 4 n E')).
    + rewrite (find_none mon n x r) by (auto; do 12 (destruct j as [|j]; [try congruence; injection E as <-; vm_compute; reflexivity|]); destruct j; discriminate).
      now rewrite (find_first x r n A N abmon j 0 E (unclear_first _ abmon_clear j n E)).
Qed.
Lemma find_day n x r : In n day \/ In n abday -> any_case n x -> no_letter r -> exists i, find_string (x ++ r) day abday = Some (i, r).
Proof.
  intros O A N. unfold find_string. destruct O as [I|I]; apply In_nth_error in I as [j E].
  - eexists. now rewrite (find_first x r n A N day j 0 E (unclear_first _ day_clear j n E)).
  - eexists. rewrite (find_none day n x r) by (auto; do 7 (destruct j as [|j]; [injection E as <-; vm_compute; reflexivity|]); destruct j; discriminate).
    now rewrite (find_first x r n A N abday j 0 E (unclear_first _ abday_clear j n E)).
Qed.
Lemma find_ampm h n x r : 0 <= h < 2 -> nth_error am_pm (Z.to_nat h) = Some n -> any_case n x -> find_string (x ++ r) am_pm [] = Some (h, r).
Proof.
  intros H E A. assert (h = 0 \/ h = 1) as [-> | ->] by lia; cbn in E; injection E as <-.
  - unfold find_string. cbn [am_pm map find_from]. now rewrite (match_case (str "AM") x r A).
  - unfold find_string. cbn [am_pm map find_from].
    assert (match_name (str "AM") (x ++ r) = None) as ->.
    { unfold any_case in A. destruct x as [|c x]; [discriminate A|]. cbn in A. injection A as A1 _. cbn. rewrite A1. reflexivity. }
    now rewrite (match_case (str "PM") x r A).
Qed.
