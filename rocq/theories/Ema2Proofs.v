(** Decayed sums and moving averages along the rows of a group, over the reals. *)
From Verif Require Import Base Mem MemLemmas AccumSpec EmaModel EmaSpec EmaProofs.
From Coq Require Import Reals Lra.
Local Open Scope nat_scope.

Lemma decayed_shift rate t t' l : decayed rate t' l = (decayed rate t l * exp (- rate * (t' - t)))%R.
Proof.
  unfold decayed. induction l as [| [a v] l IH]; cbn [map fold_right fst snd]; [lra |]. rewrite IH, Rmult_plus_distr_r. f_equal.
  rewrite Rmult_assoc, <- exp_plus. do 2 f_equal. ring.
Qed.
Lemma decayed_snoc rate t l v : decayed rate t (l ++ [(t, v)]) = (decayed rate t l + v)%R.
Proof.
  unfold decayed. induction l as [| [a w] l IH]; cbn [app map fold_right fst snd]. { replace (- rate * (t - t))%R with 0%R by ring. rewrite exp_0. ring. } rewrite IH. ring.
Qed.
Lemma combine_snoc {A B} (l : list A) (m : list B) a b : length l = length m -> combine (l ++ [a]) (m ++ [b]) = combine l m ++ [(a, b)].
Proof. revert m. induction l as [| x l IH]; intros [| y m] H; try discriminate; auto. cbn. rewrite IH; auto. Qed.
Lemma picked_len {A} (src : list A) rows vs : picked src rows vs -> length vs = length rows.
Proof. unfold picked. intros H. apply (f_equal (@length _)) in H. rewrite !map_length in H. auto. Qed.

Section Decay.
  Context {T V : Type} (keys : list Z) (src : list T) (times : list V) (n : Z) (im rm : option (list bool)) (inv : R) (ofT : T -> R) (zeroT : T) (rate : R).
  Context (delta : V -> V -> option R) (time : V -> R) (time0 : V).
  Hypothesis N : (0 <= n)%Z.
  Hypothesis B : Forall (fun k => k <= n)%Z keys.
  Hypothesis Ls : length src = length keys.
  Hypothesis Lt : length times = length keys.
  Hypothesis Li : mask_ok (length keys) im.
  Hypothesis Lr : mask_ok (length keys) rm.
  Hypothesis M : im = None \/ rm = None.
  Hypothesis Z0 : ofT zeroT = 0%R.
  Hypothesis D0 : forall t, In t times -> exists d, delta t time0 = Some d.
  Hypothesis DT : forall i j k ti tj, j < i -> nth_error keys j = Some k -> nth_error keys i = Some k -> nth_error times j = Some tj -> nth_error times i = Some ti ->
    delta ti tj = Some (time ti - time tj)%R.
  Notation sum l ts vs := (decayed rate l (combine (map time ts) (map ofT vs))).
  Definition dinv (rows : list nat) (w : R * V) : Prop :=
    exists s vs ts, since (on false rm) (filter (on true im) rows) s /\ picked src s vs /\ picked times s ts /\
      ((rows = [] /\ fst w = 0%R /\ snd w = time0) \/ exists p, In p rows /\ nth_error times p = Some (snd w) /\ fst w = sum (time (snd w)) ts vs).
  Lemma decay_ok body :
    (forall i w x t, i < length keys -> nth_error src i = Some x -> nth_error times i = Some t ->
      body i w = do w2 <- decay_step ofT Rplus Rmult delta (fun x => exp (- rate * x)) (if on true im i then x else zeroT) t (if on false rm i then (0%R, time0) else w); Some (w2, fst w2)) ->
    exists res, by_rows true (Some inv) body keys 0 (bins n (0%R, time0)) = Some res /\ by_group 1 keys (Some inv) (decay_row ofT time rate keys src times im rm) res.
  Proof.
    intros Hb. apply (by_rows_ok keys true (Some inv) body 1 (fun k rows w => dinv rows w) (decay_row ofT time rate keys src times im rm) eq_refl).
    - intros i k w Ek Lk (s & vs & ts & S1 & P1 & P2 & H). pose proof (nth_error_Some_lt _ _ _ Ek) as Hi.
      destruct (nth_ok src _ i Ls Hi) as (x & Ex), (nth_ok times _ i Lt Hi) as (t & Et). rewrite (Hb i w x t Hi Ex Et).
      assert (K : forall w', (exists s vs ts, since (on false rm) (filter (on true im) (before keys k i ++ [i])) s /\ picked src s vs /\ picked times s ts /\ fst w' = sum (time t) ts vs) -> snd w' = t ->
        dinv (before keys k i ++ [i]) w' /\ decay_row ofT time rate keys src times im rm i (fst w')).
      { intros w' (s' & vs' & ts' & A1 & A2 & A3 & A4) A5. split.
        - exists s', vs', ts'. repeat split; auto. right. exists i. rewrite A5. split; [apply in_or_app; right; now left |]. auto.
        - intros g Eg. assert (g = k) as -> by congruence. exists s', vs', ts', t. rewrite before_S, (has_key_at _ _ _ k Ek), Z.eqb_refl. auto 10. }
      assert (C : exists d, delta t (snd (if on false rm i then (0%R, time0) else w)) = Some d /\ (fst (if on false rm i then (0%R, time0) else w) * exp (- rate * d))%R = if on false rm i then 0%R else sum (time t) ts vs).
      { destruct (D0 t (nth_error_In _ _ Et)) as (d0 & E0). destruct (on false rm i); cbn [fst snd]. { exists d0. split; auto. ring. }
        destruct H as [(E1 & E2 & E3) | (p & Ip & Ep & E2)].
        - rewrite E3. exists d0. split; auto. rewrite E2. rewrite E1 in S1. cbn in S1. apply before_in with (keys := keys) (g := k) || idtac.
          assert (s = []) as -> by (inversion S1; subst; auto; destruct p; discriminate). apply picked_len in P1, P2. destruct vs, ts; try discriminate. unfold decayed. cbn. ring.
        - apply before_in in Ip as [Lp Kp]. rewrite (DT i p k t (snd w) Lp Kp Ek Ep Et). eexists. split; [reflexivity |]. rewrite E2. symmetry. apply decayed_shift. }
      destruct C as (d & Ed & Es). unfold decay_step. rewrite Ed. eexists _, _. split; [reflexivity |]. cbn [fst]. apply (K (_, t)); [| reflexivity]. cbn [fst]. rewrite Es.
      rewrite filter_app. cbn [filter]. destruct (on true im i) eqn:Ei.
      + pose proof (since_snoc _ _ _ i S1) as S2. destruct (on false rm i).
        * exists [i], [x], [t]. split; auto. split; [now apply picked_one |]. split; [now apply picked_one |]. unfold decayed. cbn. replace (- rate * (time t - time t))%R with 0%R by ring. rewrite exp_0. ring.
        * exists (s ++ [i]), (vs ++ [x]), (ts ++ [t]). split; auto. split; [now apply picked_snoc |]. split; [now apply picked_snoc |]. rewrite !map_app. cbn [map]. rewrite combine_snoc, decayed_snoc; [ring |].
          rewrite !map_length. now rewrite (picked_len _ _ _ P1), (picked_len _ _ _ P2).
      + assert (on false rm i = false) as -> by (destruct M as [-> | ->]; [discriminate | reflexivity]). exists s, vs, ts. rewrite app_nil_r, Z0. repeat split; auto. ring.
    - rewrite bins_length by auto. eapply Forall_impl; [| exact B]. cbn. lia.
    - intros k w _ Hw. apply bins_read in Hw. subst w. exists [], [], []. split; [apply since_nil |]. repeat split; auto. 
  Qed.
  Lemma EmaDecay_ok : exists res, EmaDecay keys src times n im rm inv ofT 0%R Rplus Rmult delta (fun x => exp (- rate * x)) time0 zeroT = Some res /\
    by_group 1 keys (Some inv) (decay_row ofT time rate keys src times im rm) res.
  Proof.
    unfold EmaDecay. pose proof decay_ok as G. destruct im as [il |], rm as [rl |]; cbn [mask_ok] in *.
    - destruct M; discriminate.
    - apply G. intros i w x t Hi Ex Et. rewrite Et. cbn [on]. destruct (nth_ok il _ i Li Hi) as (b & Eb). rewrite Eb, (nth_error_nth _ _ _ Eb). destruct b; [now rewrite Ex | reflexivity].
    - apply G. intros i w x t Hi Ex Et. rewrite Ex, Et. cbn [on]. destruct (nth_ok rl _ i Lr Hi) as (b & Eb). now rewrite Eb, (nth_error_nth _ _ _ Eb).
    - apply G. intros i w x t Hi Ex Et. now rewrite Ex, Et.
  Qed.
End Decay.

(** ** Averages *)
Lemma average_snoc {V} (weight : V -> V -> R) l : forall e last t v,
  average weight e last (l ++ [(t, v)]) = (v * (1 - weight t (List.last (map fst l) last)) + average weight e last l * weight t (List.last (map fst l) last))%R.
Proof.
  induction l as [| [a b] l IH]; intros e last t v; [reflexivity |]. cbn [app average map fst]. rewrite IH. destruct l as [| c l]; [reflexivity |]. cbn [map]. reflexivity || idtac.
  assert (G : forall d d', List.last (fst c :: map fst l) d = List.last (fst c :: map fst l) d') by (generalize (fst c); induction (map fst l) as [| y m IHm]; intros; cbn; auto; apply IHm).
  change (List.last (a :: fst c :: map fst l) last) with (List.last (fst c :: map fst l) last). now rewrite (G a last).
Qed.
Section Prefill.
  Context {T U : Type} (ofT : T -> U).
  Definition first_of (keys : list Z) (src : list T) (k : Z) (x : T) : Prop :=
    exists i, nth_error keys i = Some k /\ nth_error src i = Some x /\ forall j, j < i -> nth_error keys j <> Some k.
  Lemma prefill_ok keys : forall src ws, length src = length keys -> Forall (fun k => 0 <= k < Z.of_nat (length ws))%Z keys ->
    exists ws', prefill ofT keys src ws = Some ws' /\ length ws' = length ws /\ forall k x, first_of keys src k x -> zrd ws' k = Some (ofT x).
  Proof.
    induction keys as [| k keys IH]; intros [| x src] ws Ls F; try discriminate; cbn [prefill].
    - exists ws. split; auto. split; auto. intros k x ([| i] & H & _); discriminate.
    - inversion F as [| ? ? Hk F']; subst. destruct (IH src ws ltac:(cbn in Ls; lia) F') as (ws2 & E & L & H). rewrite E.
      destruct (nth_ok ws2 _ (Z.to_nat k) L ltac:(lia)) as (y & Ey). assert (Ez : zrd ws2 k = Some y) by (unfold zrd; destruct (Z.leb_spec 0 k); [auto | lia]).
      destruct (zwr_ok ws2 k (ofT x) y Ez) as (ws3 & E3 & L3 & H3). rewrite E3. exists ws3. split; auto. split; [lia |].
      intros g z (i & Hi & Hx & Hn). rewrite H3. destruct (Z.eqb_spec g k) as [-> | Ne].
      + destruct i; [cbn in Hx; congruence |]. exfalso. apply (Hn 0 ltac:(lia)). reflexivity.
      + destruct i; [cbn in Hi; congruence |]. apply H. exists i. split; auto. split; auto. intros j Hj. apply (Hn (S j)). lia.
  Qed.
End Prefill.
Lemma before_nil_first {T} keys (src : list T) k i x : nth_error keys i = Some k -> nth_error src i = Some x -> before keys k i = [] -> first_of keys src k x.
Proof.
  intros Ek Ex E. exists i. split; auto. split; auto. intros j Hj Ej. assert (In j (before keys k i)). { unfold before. rewrite filter_In, in_seq, (has_key_at _ _ _ k Ej), Z.eqb_refl. split; [lia | auto]. } rewrite E in *. auto.
Qed.
Section Avg.
  Context {T V W : Type} (keys : list Z) (src : list T) (times : list V) (n : Z) (inv : R) (ofT : T -> R) (weight : V -> V -> R).
  Context (pe : W -> R) (pl : W -> V) (l0 : V) (body : nat -> W -> option (W * R)).
  Hypothesis Ls : length src = length keys.
  Hypothesis Lt : length times = length keys.
  Hypothesis Hb : forall i k w x t, nth_error keys i = Some k -> nth_error src i = Some x -> nth_error times i = Some t ->
    (pl w = l0 \/ exists j, j < i /\ nth_error keys j = Some k /\ nth_error times j = Some (pl w)) ->
    exists w', body i w = Some (w', pe w') /\ pl w' = t /\ exists wt, pe w' = (ofT x * (1 - wt) + pe w * wt)%R /\ ((exists j, j < i /\ nth_error keys j = Some k) -> wt = weight t (pl w)).
  Definition ainv (k : Z) (rows : list nat) (w : W) : Prop :=
    (rows = [] /\ pl w = l0 /\ forall x, first_of keys src k x -> pe w = ofT x) \/
    exists v t vs ts, picked src rows (v :: vs) /\ picked times rows (t :: ts) /\ pe w = average weight (ofT v) t (combine ts (map ofT vs)) /\ pl w = List.last ts t.
  Lemma last_in {A} (l : list A) d : In (List.last l d) (d :: l).
  Proof. induction l as [| a l IH]; [now left |]. destruct l as [| b l]; [right; now left |]. cbn [List.last] in *. destruct IH as [<- | IH]; [now left | right; now right]. Qed.
  Lemma map_fst_combine {A C} (l : list A) (m : list C) : length l = length m -> map fst (combine l m) = l.
  Proof. revert m. induction l as [| a l IH]; intros [| b m] H; try discriminate; auto. cbn. rewrite IH; auto. Qed.
  Lemma avg_ok ws : Forall (fun k => k < Z.of_nat (length ws))%Z keys -> (forall k w, (1 <= k)%Z -> zrd ws k = Some w -> ainv k [] w) ->
    exists res, by_rows true (Some inv) body keys 0 ws = Some res /\ by_group 1 keys (Some inv) (average_row ofT weight keys src times) res.
  Proof.
    intros B H0. apply (by_rows_ok keys true (Some inv) body 1 ainv (average_row ofT weight keys src times) eq_refl); auto.
    intros i k w Ek Lk H. pose proof (nth_error_Some_lt _ _ _ Ek) as Hi. destruct (nth_ok src _ i Ls Hi) as (x & Ex), (nth_ok times _ i Lt Hi) as (t & Et).
    assert (K : forall w', (exists v t vs ts, picked src (before keys k i ++ [i]) (v :: vs) /\ picked times (before keys k i ++ [i]) (t :: ts) /\ pe w' = average weight (ofT v) t (combine ts (map ofT vs)) /\ pl w' = List.last ts t) ->
       ainv k (before keys k i ++ [i]) w' /\ average_row ofT weight keys src times i (pe w')).
    { intros w' G. split; [now right |]. destruct G as (v & t' & vs & ts & A1 & A2 & A3 & _). intros g Eg. assert (g = k) as -> by congruence. exists v, t', vs, ts. rewrite before_S, (has_key_at _ _ _ k Ek), Z.eqb_refl. auto. }
    destruct H as [(E & El & Ef) | (v & t1 & vs & ts & P1 & P2 & Ee & El)].
    - destruct (Hb i k w x t Ek Ex Et (or_introl El)) as (w' & E1 & E2 & wt & E3 & _). exists w', (pe w'). split; auto. apply K. rewrite E. exists x, t, [], []. cbn [app].
      split; [now apply picked_one |]. split; [now apply picked_one |]. split; [| auto]. cbn. rewrite E3, (Ef x (before_nil_first _ _ _ _ _ Ek Ex E)). ring.
    - assert (J : exists j, j < i /\ nth_error keys j = Some k /\ nth_error times j = Some (pl w)).
      { assert (In (Some (pl w)) (map (nth_error times) (before keys k i))) as I. { rewrite P2, El. apply in_map, last_in. } apply in_map_iff in I as (j & Ej & Ij). apply before_in in Ij as [? ?]. eauto. }
      destruct (Hb i k w x t Ek Ex Et (or_intror J)) as (w' & E1 & E2 & wt & E3 & Ew). destruct J as (j & Hj & Kj & _). rewrite (Ew (ex_intro _ j (conj Hj Kj))) in E3. exists w', (pe w'). split; auto. apply K.
      exists v, t1, (vs ++ [x]), (ts ++ [t]). pose proof (picked_len _ _ _ P1) as L1. pose proof (picked_len _ _ _ P2) as L2. cbn [length] in *.
      split; [exact (picked_snoc src _ _ i x P1 Ex) |]. split; [exact (picked_snoc times _ _ i t P2 Et) |]. split; [| now rewrite last_last].
      rewrite map_app. cbn [map]. rewrite combine_snoc by (rewrite map_length; lia). rewrite average_snoc, map_fst_combine by (rewrite map_length; lia). rewrite <- El, <- Ee. exact E3.
  Qed.
End Avg.

Section Normal.
  Context {T V : Type} (keys : list Z) (src : list T) (times : list V) (n : Z) (inv : R) (ofT : T -> R) (zeroT : T) (negative : R -> bool) (decay : R -> R).
  Context (delta : V -> V -> option R) (time0 largeNegative : V) (ws0 : list R).
  Hypothesis N : (0 <= n)%Z.
  Hypothesis B : Forall (fun k => 0 <= k <= n)%Z keys.
  Hypothesis Ls : length src = length keys.
  Hypothesis Lt : length times = length keys.
  Hypothesis Lw : Z.of_nat (length ws0) = (n + 1)%Z.
  Hypothesis D0 : forall t, In t times -> exists d, delta t largeNegative = Some d.
  Hypothesis DT : forall i j k ti tj, j < i -> nth_error keys j = Some k -> nth_error keys i = Some k -> nth_error times j = Some tj -> nth_error times i = Some ti -> exists d, delta ti tj = Some d.
  Notation weight_of := (weight_of delta negative decay).
  Lemma EmaNormal_ok : exists res, EmaNormal keys src times None None inv ofT 0%R 1%R Rplus Rminus Rmult delta negative decay time0 largeNegative zeroT ws0 = Some res /\
    by_group 1 keys (Some inv) (average_row ofT weight_of keys src times) res.
  Proof.
    unfold EmaNormal. destruct (prefill_ok ofT keys src ws0 Ls) as (ws & E & L & H). { eapply Forall_impl; [| exact B]. cbn. lia. } rewrite E. cbv zeta.
    apply (avg_ok keys src times inv ofT weight_of (fun w : R * V * T => fst (fst w)) (fun w => snd (fst w)) largeNegative); auto.
    - intros i k [[e last] lv] x t Ek Ex Et Hw. cbn [fst snd] in *. rewrite Ex, Et. unfold normal_step. cbn [fst snd].
      assert (exists d, delta t last = Some d) as (d & Ed). { destruct Hw as [-> | (j & Hj & Kj & Tj)]; [apply D0; now apply nth_error_In in Et | eauto]. }
      rewrite Ed. set (e2 := (_ + _)%R). exists (e2, t, lv). split; [reflexivity |]. split; [reflexivity |]. eexists. split; [reflexivity |]. intros _. unfold EmaSpec.weight_of. now rewrite Ed.
    - rewrite map_length, L, Lw. eapply Forall_impl; [| exact B]. cbn. lia.
    - intros k w Hk Hw. left. split; auto. unfold zrd in Hw. destruct (Z.leb_spec 0 k); [| lia]. rewrite nth_error_map in Hw. destruct (nth_error ws (Z.to_nat k)) as [e |] eqn:Ee; [| discriminate]. injection Hw as <-. cbn. split; auto.
      intros x Hx. specialize (H k x Hx). unfold zrd in H. destruct (Z.leb_spec 0 k); [| lia]. congruence.
  Qed.
End Normal.

Section Weighted.
  Context {T : Type} (keys : list Z) (src : list T) (n : Z) (inv : R) (ofT : T -> R) (zeroT : T) (ws0 : list R).
  Hypothesis B : Forall (fun k => 0 <= k <= n)%Z keys.
  Hypothesis Ls : length src = length keys.
  Hypothesis Lw : Z.of_nat (length ws0) = (n + 1)%Z.
  Lemma EmaWeighted_ok wt : exists res, EmaWeighted keys src None None inv ofT 0%R 1%R Rplus Rminus Rmult zeroT wt ws0 = Some res /\
    by_group 1 keys (Some inv) (average_row ofT (fun _ _ => wt) keys src (repeat tt (length keys))) res.
  Proof.
    unfold EmaWeighted. destruct (prefill_ok ofT keys src ws0 Ls) as (ws & E & L & H). { eapply Forall_impl; [| exact B]. cbn. lia. } rewrite E.
    apply (avg_ok keys src (repeat tt (length keys)) inv ofT (fun _ _ => wt) (fun w : R => w) (fun _ => tt) tt); auto.
    - apply repeat_length.
    - intros i k e x t Ek Ex Et Hw. rewrite Ex. eexists. split; [reflexivity |]. split; [now destruct t |]. eexists. split; [reflexivity |]. auto.
    - rewrite L, Lw. eapply Forall_impl; [| exact B]. cbn. lia.
    - intros k w Hk Hw. left. split; auto. split; auto. intros x Hx. specialize (H k x Hx). congruence.
  Qed.
End Weighted.
