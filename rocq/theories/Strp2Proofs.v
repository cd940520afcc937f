From Coq Require Import Ascii String.
From Verif Require Import Base Mem MemLemmas DateModel DateSpec DateProofs StrpModel StrpSpec StrpProofs.
Import ListNotations.
Local Open Scope Z_scope.

(** ** One part of a format *)
Definition agree (k : known) (m : moment) (t : tm) (split : bool) : Prop :=
  tm_year t = (if kY k then year m - 1900 else 0) /\ tm_mon t = (if kM k then month m - 1 else 0) /\ tm_mday t = (if kD k then mday m else 0) /\
  tm_hour t = (match kh k with NoHour => 0 | Half => hour m mod 12 | Full => hour m end) /\
  tm_min t = (if kmin k then minute m else 0) /\ tm_sec t = (if ksec k then second m else 0) /\ (split = true -> kY k = true).

Section One.
  Context (again : list Z -> tm -> list Z -> res).
  Local Notation run := (run again).
  Local Notation exec := (exec again).

  Lemma run_pct d f t s bp : (d =? ch "E") || (d =? ch "O") = false -> run (ch "%" :: d :: f) t s bp = match exec 0 d t s bp with Go t' s' r => run f t' s' r | x => x end.
  Proof. intros H. cbn [StrpModel.run]. change (space (ch "%")) with false. change (negb (ch "%" =? ch "%")) with false. cbn iota. now rewrite H. Qed.
  Lemma num_ok j v llim ulim next K : llim <= v <= ulim -> 0 <= v -> 10 ^ Z.of_nat j <= ulim < 10 ^ Z.of_nat (S j) -> num (digits (S j) v ++ next) llim ulim K = K v next.
  Proof. intros. unfold num. now rewrite conv_num_ok. Qed.

  Ltac fields := unfold agree; cbn [tm_year tm_mon tm_mday tm_hour tm_min tm_sec set_year set_mon set_mday set_hour set_min set_sec kY kM kD kh kmin ksec].
  Ltac split7 := split; [|split; [|split; [|split; [|split; [|split]]]]].

  Lemma part m t f next k k' x s : in_range m -> part_ok m t next -> learn t k = Some k' -> agree k m x s ->
    exists x' s', run (tok_fmt t ++ f) x s (tok_text m t ++ next) = run f x' s' next /\ agree k' m x' s'.
  Proof.
    intros (D & Hh & Hm & Hs) P L (A1 & A2 & A3 & A4 & A5 & A6 & A7). destruct D as (Dy & Dm & Dd).
    assert (Dd31 : 1 <= mday m <= 31) by (pose proof (month_days_31 (year m) (month m)); lia).
    destruct t as [c | | w ws | w ws | fl | c tx | c tx | tx | c kk v | c b]; cbn [part_ok tok_fmt tok_text learn] in *.
    - (* a literal *) injection L as <-. exists x, s. split; [|now split7]. destruct P as (P1 & P2 & P3). cbn [app StrpModel.run]. rewrite P2.
      apply Z.eqb_neq in P3. rewrite P3. cbn [negb peek hd tl]. now rewrite Z.eqb_refl.
    - injection L as <-. exists x, s. split; [reflexivity|now split7].
    - injection L as <-. exists x, s. split; [|now split7]. destruct P as (P1 & P2 & P3). cbn [app StrpModel.run]. rewrite P1. now rewrite skip_space_ok.
    - injection L as <-. exists x, s. split; [|now split7]. destruct P as (P1 & P2 & P3). cbn [app].
      rewrite run_pct by (destruct P1 as [-> | ->]; reflexivity).
      assert (exec 0 w x s (ws ++ next) = Go x s (skip_space (ws ++ next))) as -> by (destruct P1 as [-> | ->]; reflexivity). now rewrite skip_space_ok.
    - destruct fl; cbn [field_letter field_text] in *; injection L as <-.
      + exists (set_year x (year m - 1900)), s. split; [|fields; now split7].
        change (str "%Y" ++ f) with (ch "%" :: ch "Y" :: f). rewrite run_pct by reflexivity.
        change (exec 0 (ch "Y") x s (digits 4 (year m) ++ next)) with (num (digits 4 (year m) ++ next) 0 9999 (fun i r => Go (set_year x (i - 1900)) s r)).
        rewrite num_ok by (cbn; lia). reflexivity.
      + exists (set_year x (year m - 1900)), true. split; [|fields; now split7].
        change (str "%y" ++ f) with (ch "%" :: ch "y" :: f). rewrite run_pct by reflexivity.
        match goal with |- context [exec 0 (ch "y") x s ?bp] =>
          change (exec 0 (ch "y") x s bp) with (num bp 0 99 (fun i r => Go (set_year x (if s then i + Z.quot (tm_year x) 100 * 100 else if i <=? 68 then i + 2000 - 1900 else i + 1900 - 1900)) true r)) end.
        pose proof (Z.mod_pos_bound (year m) 100). pose proof (Z.div_mod (year m) 100). rewrite num_ok by (cbn; lia).
        assert ((if s then year m mod 100 + Z.quot (tm_year x) 100 * 100 else if year m mod 100 <=? 68 then year m mod 100 + 2000 - 1900 else year m mod 100 + 1900 - 1900) = year m - 1900) as ->; [|reflexivity].
        destruct s.
        * rewrite A1, (A7 eq_refl), Z.quot_div_nonneg by lia. replace (year m - 1900) with (year m + (-19) * 100) by lia. rewrite Z.div_add by lia. lia.
        * destruct (Z.leb_spec (year m mod 100) 68).
          -- assert (year m / 100 = 20) by (assert (19 <= year m / 100 <= 20) by (split; [apply Z.div_le_lower_bound|apply Z.lt_succ_r, Z.div_lt_upper_bound]; lia); lia). lia.
          -- assert (year m / 100 = 19) by (assert (19 <= year m / 100 <= 20) by (split; [apply Z.div_le_lower_bound|apply Z.lt_succ_r, Z.div_lt_upper_bound]; lia); lia). lia.
      + exists (set_year x (year m - 1900)), true. split; [|fields; now split7].
        pose proof (Z.mod_pos_bound (year m) 100). pose proof (Z.div_mod (year m) 100).
        assert (19 <= year m / 100 <= 20) by (split; [apply Z.div_le_lower_bound|apply Z.lt_succ_r, Z.div_lt_upper_bound]; lia).
        change (str "%C%y" ++ f) with (ch "%" :: ch "C" :: ch "%" :: ch "y" :: f). rewrite <- app_assoc, run_pct by reflexivity.
        match goal with |- context [exec 0 (ch "C") x s ?bp] =>
          change (exec 0 (ch "C") x s bp) with (num bp 0 99 (fun i r => Go (set_year x (i * 100 - 1900 + (if s then Z.rem (tm_year x) 100 else 0))) true r)) end.
        rewrite num_ok by (cbn; lia). rewrite run_pct by reflexivity.
        match goal with |- context [exec 0 (ch "y") ?x' true ?bp] =>
          change (exec 0 (ch "y") x' true bp) with (num bp 0 99 (fun i r => Go (set_year x' (i + Z.quot (tm_year x') 100 * 100)) true r)) end.
        rewrite num_ok by (cbn; lia). cbn [tm_year set_year].
        assert (R : 0 <= (if s then Z.rem (tm_year x) 100 else 0) < 100).
        { destruct s; [|lia]. rewrite A1, (A7 eq_refl). apply Z.rem_bound_pos; lia. }
        set (q := if s then Z.rem (tm_year x) 100 else 0) in *. rewrite Z.quot_div_nonneg by lia.
        replace (year m / 100 * 100 - 1900 + q) with (q + (year m / 100 - 19) * 100) by lia. rewrite Z.div_add, (Z.div_small q) by lia.
        replace (year m mod 100 + (0 + (year m / 100 - 19)) * 100) with (year m - 1900) by lia. reflexivity.
      + exists (set_mon x (month m - 1)), s. split; [|fields; now split7].
        change (str "%m" ++ f) with (ch "%" :: ch "m" :: f). rewrite run_pct by reflexivity.
        match goal with |- context [exec 0 (ch "m") x s ?bp] => change (exec 0 (ch "m") x s bp) with (num bp 1 12 (fun i r => Go (set_mon x (i - 1)) s r)) end.
        rewrite num_ok by (cbn; lia). reflexivity.
      + exists (set_mday x (mday m)), s. split; [|fields; now split7].
        change (str "%d" ++ f) with (ch "%" :: ch "d" :: f). rewrite run_pct by reflexivity.
        match goal with |- context [exec 0 (ch "d") x s ?bp] => change (exec 0 (ch "d") x s bp) with (num bp 1 31 (fun i r => Go (set_mday x i) s r)) end.
        rewrite num_ok by (cbn; lia). reflexivity.
      + exists (set_mday x (mday m)), s. split; [|fields; now split7].
        change (str "%e" ++ f) with (ch "%" :: ch "e" :: f). rewrite run_pct by reflexivity.
        match goal with |- context [exec 0 (ch "e") x s ?bp] => change (exec 0 (ch "e") x s bp) with (num bp 1 31 (fun i r => Go (set_mday x i) s r)) end.
        rewrite num_ok by (cbn; lia). reflexivity.
      + exists (set_hour x (hour m)), s. split; [|fields; now split7].
        change (str "%H" ++ f) with (ch "%" :: ch "H" :: f). rewrite run_pct by reflexivity.
        match goal with |- context [exec 0 (ch "H") x s ?bp] => change (exec 0 (ch "H") x s bp) with (num bp 0 23 (fun i r => Go (set_hour x i) s r)) end.
        rewrite num_ok by (cbn; lia). reflexivity.
      + exists (set_hour x (hour m)), s. split; [|fields; now split7].
        change (str "%k" ++ f) with (ch "%" :: ch "k" :: f). rewrite run_pct by reflexivity.
        match goal with |- context [exec 0 (ch "k") x s ?bp] => change (exec 0 (ch "k") x s bp) with (num bp 0 23 (fun i r => Go (set_hour x i) s r)) end.
        rewrite num_ok by (cbn; lia). reflexivity.
      + exists (set_hour x (hour m mod 12)), s. split; [|fields; now split7].
        change (str "%I" ++ f) with (ch "%" :: ch "I" :: f). rewrite run_pct by reflexivity.
        match goal with |- context [exec 0 (ch "I") x s ?bp] => change (exec 0 (ch "I") x s bp) with (num bp 1 12 (fun i r => Go (set_hour x (if i =? 12 then 0 else i)) s r)) end.
        pose proof (Z.mod_pos_bound (hour m) 12). rewrite num_ok by (cbn; destruct (Z.eqb_spec (hour m mod 12) 0); lia).
        destruct (Z.eqb_spec (hour m mod 12) 0) as [-> | N]; [reflexivity|]. replace (hour m mod 12 =? 12) with false by lia. reflexivity.
      + exists (set_hour x (hour m mod 12)), s. split; [|fields; now split7].
        change (str "%l" ++ f) with (ch "%" :: ch "l" :: f). rewrite run_pct by reflexivity.
        match goal with |- context [exec 0 (ch "l") x s ?bp] => change (exec 0 (ch "l") x s bp) with (num bp 1 12 (fun i r => Go (set_hour x (if i =? 12 then 0 else i)) s r)) end.
        pose proof (Z.mod_pos_bound (hour m) 12). rewrite num_ok by (cbn; destruct (Z.eqb_spec (hour m mod 12) 0); lia).
        destruct (Z.eqb_spec (hour m mod 12) 0) as [-> | N]; [reflexivity|]. replace (hour m mod 12 =? 12) with false by lia. reflexivity.
      + exists (set_min x (minute m)), s. split; [|fields; now split7].
        change (str "%M" ++ f) with (ch "%" :: ch "M" :: f). rewrite run_pct by reflexivity.
        match goal with |- context [exec 0 (ch "M") x s ?bp] => change (exec 0 (ch "M") x s bp) with (num bp 0 59 (fun i r => Go (set_min x i) s r)) end.
        rewrite num_ok by (cbn; lia). reflexivity.
      + exists (set_sec x (second m)), s. split; [|fields; now split7].
        change (str "%S" ++ f) with (ch "%" :: ch "S" :: f). rewrite run_pct by reflexivity.
        match goal with |- context [exec 0 (ch "S") x s ?bp] => change (exec 0 (ch "S") x s bp) with (num bp 0 61 (fun i r => Go (set_sec x i) s r)) end.
        rewrite num_ok by (cbn; lia). reflexivity.
    - (* month names *) injection L as <-. exists (set_mon x (month m - 1)), s. split; [|fields; now split7]. destruct P as (P1 & P2 & names & n & P3 & P4 & P5). cbn [app].
      rewrite run_pct by (destruct P1 as [-> | [-> | ->]]; reflexivity).
      assert (exec 0 c x s (tx ++ next) = match find_string (tx ++ next) mon abmon with Some (i, r) => Go (set_mon x i) s r | None => Fail end) as -> by (destruct P1 as [-> | [-> | ->]]; reflexivity).
      rewrite (find_month _ n tx next names P3 P4 P5 P2). rewrite Z2Nat.id by lia. reflexivity.
    - (* names of days *) injection L as <-. exists x, s. split; [|now split7]. destruct P as (P1 & P2 & n & P4 & P5). cbn [app].
      rewrite run_pct by (destruct P1 as [-> | ->]; reflexivity).
      assert (exec 0 c x s (tx ++ next) = match find_string (tx ++ next) day abday with Some (_, r) => Go x s r | None => Fail end) as -> by (destruct P1 as [-> | ->]; reflexivity).
      destruct (find_day n tx next P4 P5 P2) as (i & ->). reflexivity.
    - (* AM, PM *) destruct (kh k) eqn:KH; try discriminate. injection L as <-. exists (set_hour x (hour m)), s. split; [|fields; now split7]. destruct P as (n & P4 & P5).
      change (str "%p" ++ f) with (ch "%" :: ch "p" :: f). rewrite run_pct by reflexivity.
      match goal with |- context [exec 0 (ch "p") x s ?bp] => change (exec 0 (ch "p") x s bp) with (if 11 <? tm_hour x then Fail else match find_string bp am_pm [] with Some (i, r) => Go (set_hour x (tm_hour x + i * 12)) s r | None => Fail end) end.
      pose proof (Z.mod_pos_bound (hour m) 12). pose proof (Z.div_mod (hour m) 12).
      assert (0 <= hour m / 12 < 2) by (split; [apply Z.div_pos|apply Z.div_lt_upper_bound]; lia).
      rewrite A4. replace (11 <? hour m mod 12) with false by lia. rewrite (find_ampm (hour m / 12) n) by auto.
      replace (hour m mod 12 + hour m / 12 * 12) with (hour m) by lia. reflexivity.
    - (* numbers that do not matter *) injection L as <-. exists x, s. split; [|now split7]. destruct P as (a & b & P1 & P2). cbn [app]. unfold other_range in P1.
      destruct (Z.eqb_spec c (ch "j")) as [-> |].
      { injection P1 as <- <- <-. rewrite run_pct by reflexivity. 
        match goal with |- context [exec 0 (ch "j") x s ?bp] => change (exec 0 (ch "j") x s bp) with (num bp 1 366 (fun _ r => Go x s r)) end. rewrite num_ok by (cbn; lia). reflexivity. }
      destruct ((c =? ch "U") || (c =? ch "W") || (c =? ch "V")) eqn:E.
      { injection P1 as <- <- <-. assert (O : c = ch "U" \/ c = ch "W" \/ c = ch "V") by (rewrite !orb_true_iff, !Z.eqb_eq in E; tauto).
        rewrite run_pct by (destruct O as [-> | [-> | ->]]; reflexivity).
        assert (exec 0 c x s (digits 2 v ++ next) = num (digits 2 v ++ next) 0 53 (fun _ r => Go x s r)) as -> by (destruct O as [-> | [-> | ->]]; reflexivity).
        rewrite num_ok by (cbn; lia). reflexivity. }
      destruct (Z.eqb_spec c (ch "w")) as [-> |].
      { injection P1 as <- <- <-. rewrite run_pct by reflexivity. 
        match goal with |- context [exec 0 (ch "w") x s ?bp] => change (exec 0 (ch "w") x s bp) with (num bp 0 6 (fun _ r => Go x s r)) end. rewrite num_ok by (cbn; lia). reflexivity. }
      destruct (Z.eqb_spec c (ch "u")) as [-> |].
      { injection P1 as <- <- <-. rewrite run_pct by reflexivity. 
        match goal with |- context [exec 0 (ch "u") x s ?bp] => change (exec 0 (ch "u") x s bp) with (num bp 1 7 (fun _ r => Go x s r)) end. rewrite num_ok by (cbn; lia). reflexivity. }
      destruct (Z.eqb_spec c (ch "g")) as [-> |]; [|discriminate].
      injection P1 as <- <- <-. rewrite run_pct by reflexivity. 
      match goal with |- context [exec 0 (ch "g") x s ?bp] => change (exec 0 (ch "g") x s bp) with (num bp 0 99 (fun _ r => Go x s r)) end. rewrite num_ok by (cbn; lia). reflexivity.
    - destruct P.
  Qed.
End One.

(** ** Formats *)
Lemma text_flat m n : forall t, groups_ok n t -> texts m (flat t) = tok_text m t.
Proof.
  induction n as [|n IH]; intros t G; destruct t; cbn [flat tok_text texts flat_map]; rewrite ?app_nil_r; auto; [destruct G|].
  destruct G as [_ G]. unfold texts. induction body as [|t b IB]; auto. inversion G; subst. cbn [flat_map]. rewrite flat_map_app. f_equal; auto. now apply IH.
Qed.
Lemma texts_flat m n ts : Forall (groups_ok n) ts -> texts m (flat_map flat ts) = texts m ts.
Proof.
  intros G. unfold texts. induction G as [|t ts H G IH]; auto. cbn [flat_map]. rewrite flat_map_app. f_equal; auto. eapply text_flat; eauto.
Qed.
Lemma parts_app m a b tail : parts_ok m (a ++ b) tail <-> parts_ok m a (texts m b ++ tail) /\ parts_ok m b tail.
Proof.
  induction a as [|t a IH]; cbn [app parts_ok]; [tauto|]. rewrite IH. unfold texts. rewrite flat_map_app, <- app_assoc. tauto.
Qed.
Lemma learns_app a b k : learns (a ++ b) k = match learns a k with Some k' => learns b k' | None => None end.
Proof. revert k. induction a as [|t a IH]; intros k; cbn [app learns]; auto. destruct (learn t k); auto. Qed.
Lemma learns_year ts : forall k k', learns ts k = Some k' -> kY k = true -> kY k' = true.
Proof.
  induction ts as [|t ts IH]; intros k k' L Y; cbn [learns] in L; [congruence|]. destruct (learn t k) as [k1|] eqn:E; [|discriminate]. apply (IH _ _ L).
  destruct t as [| | | |[]| | | | |]; cbn [learn] in E; try (injection E as <-; auto; fail). destruct (kh k); try discriminate. injection E as <-. auto.
Qed.
Lemma group_exec again c s t sp bp : group_fmt c = Some s -> exec again 0 c t sp bp = recurse again s t sp bp /\ (c =? ch "E") || (c =? ch "O") = false.
Proof.
  intros E. unfold group_fmt in E.
  repeat match type of E with (if ?c =? ?d then _ else _) = _ => destruct (Z.eqb_spec c d) as [-> |]; [injection E as <-; split; reflexivity|] end. discriminate.
Qed.
Lemma toks_ok m n : in_range m -> forall ts, Forall (groups_ok n) ts -> forall tail k k' t sp f, parts_ok m (flat_map flat ts) tail -> learns (flat_map flat ts) k = Some k' -> agree k m t sp ->
  exists t' sp', run (strptime_n n) (fmts ts ++ f) t sp (texts m ts ++ tail) = run (strptime_n n) f t' sp' tail /\ agree k' m t' sp'.
Proof.
  intros R. induction n as [|n IN]; intros ts G; induction G as [|t0 ts G0 G IH]; intros tail k k' t sp f P L A; cbn [flat_map fmts texts app] in *;
    try (injection L as <-; eauto; fail); rewrite learns_app in L; destruct (learns (flat t0) k) as [k1|] eqn:L0; try discriminate; apply parts_app in P as [P0 P].
  - fold (fmts ts) in *. fold (texts m ts) in *. rewrite <- !app_assoc. rewrite (texts_flat m 0 ts G) in P0.
    destruct t0; try (destruct G0; fail); cbn [flat parts_ok learns] in P0, L0; destruct P0 as [P0 _];
      match type of L0 with match learn ?t ?k with _ => _ end = _ => destruct (learn t k) as [k2|] eqn:L1; [|discriminate]; injection L0 as ->;
        destruct (part (strptime_n 0) m t (fmts ts ++ f) (texts m ts ++ tail) _ _ _ _ R P0 L1 A) as (t1 & s1 & -> & A1) end; apply (IH _ _ _ _ _ _ P L A1).
  - fold (fmts ts) in *. fold (texts m ts) in *. rewrite <- !app_assoc. rewrite (texts_flat m (S n) ts G) in P0.
    destruct t0 as [| | | | | | | | |c b];
      try (cbn [flat parts_ok learns] in P0, L0; destruct P0 as [P0 _];
        match type of L0 with match learn ?t ?k with _ => _ end = _ => destruct (learn t k) as [k2|] eqn:L1; [|discriminate]; injection L0 as ->;
        destruct (part (strptime_n (S n)) m t (fmts ts ++ f) (texts m ts ++ tail) _ _ _ _ R P0 L1 A) as (t1 & s1 & -> & A1) end; apply (IH _ _ _ _ _ _ P L A1)).
    destruct G0 as [GF GB]. destruct (group_fmt c) as [s|] eqn:GC; [|discriminate]. cbn [option_map] in GF. injection GF as GF.
    destruct (group_exec (strptime_n (S n)) c s t sp (tok_text m (Group c b) ++ texts m ts ++ tail) GC) as [EX NE].
    cbn [tok_fmt app]. rewrite run_pct by auto. rewrite EX. unfold recurse. cbn [strptime_n tok_text]. fold (texts m b). rewrite GF.
    assert (A' : agree k m t false) by (destruct A as (? & ? & ? & ? & ? & ? & ?); unfold agree; split; [assumption|split; [assumption|split; [assumption|split; [assumption|split; [assumption|split; [assumption|discriminate]]]]]]).
    destruct (IN b GB (texts m ts ++ tail) k k1 t false [] P0 L0 A') as (t1 & s1 & E1 & A1). rewrite app_nil_r in E1. rewrite E1. cbn [StrpModel.run].
    assert (A2 : agree k1 m t1 sp).
    { destruct A1 as (? & ? & ? & ? & ? & ? & ?), A as (? & ? & ? & ? & ? & ? & Y). unfold agree. split; [assumption|split; [assumption|split; [assumption|split; [assumption|split; [assumption|split; [assumption|]]]]]].
      intros SP. eapply learns_year; eauto. }
    apply (IH _ _ _ _ _ _ P L A2).
Qed.
Lemma strptime_ok m ts tail : in_range m -> tells ts m tail -> exists sp,
  rt_strptime (fmts ts) tm0 (texts m ts ++ tail) = Go {| tm_year := year m - 1900; tm_mon := month m - 1; tm_mday := mday m; tm_hour := hour m; tm_min := minute m; tm_sec := second m |} sp tail.
Proof.
  intros R (G & P & k & L & C1 & C2 & C3 & C4 & C5 & C6).
  destruct (toks_ok m 2 R ts G tail nothing k tm0 false [] P L) as (t & sp & E & A1 & A2 & A3 & A4 & A5 & A6 & _).
  { unfold agree, tm0, nothing. cbn. split; [auto|split; [auto|split; [auto|split; [auto|split; [auto|split; [auto|discriminate]]]]]]. }
  rewrite app_nil_r in E. unfold rt_strptime. cbn [strptime_n]. cbn [strptime_n] in E. rewrite E. exists sp. cbn [StrpModel.run]. f_equal.
  rewrite C1 in A1. rewrite C2 in A2. rewrite C3 in A3. destruct t as [ty tmo td th tmi ts']. cbn in *. subst. f_equal.
  - destruct C4 as [-> | [-> ->]]; auto.
  - destruct C5 as [-> | ->]; auto. now destruct (kmin k).
  - destruct C6 as [-> | ->]; auto. now destruct (ksec k).
Qed.
