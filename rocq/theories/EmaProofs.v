(** Running values along the rows of a group: the loops. *)
From Verif Require Import Base Mem MemLemmas AccumSpec EmaModel EmaSpec.
Local Open Scope nat_scope.

Lemma before_S keys k i : before keys k (S i) = before keys k i ++ (if has_key keys k i then [i] else []).
Proof. unfold before. rewrite seq_S, filter_app. cbn. now destruct (has_key keys k i). Qed.
Lemma has_key_at keys i k g : nth_error keys i = Some k -> has_key keys g i = (k =? g)%Z.
Proof. unfold has_key. now intros ->. Qed.
Lemma before_in keys g i j : In j (before keys g i) -> j < i /\ nth_error keys j = Some g.
Proof.
  unfold before. rewrite filter_In, in_seq. unfold has_key. intros [H E]. split; [lia |]. destruct (nth_error keys j); [| discriminate]. apply Z.eqb_eq in E. now subst.
Qed.
Lemma zwr_ok {A} (l : list A) k x w : zrd l k = Some w -> exists l', zwr l k x = Some l' /\ length l' = length l /\ (forall g, zrd l' g = if (g =? k)%Z then Some x else zrd l g).
Proof.
  unfold zrd, zwr. intros H. destruct (Z.leb_spec 0 k); [| discriminate]. pose proof (nth_error_Some_lt _ _ _ H). destruct (Z.ltb_spec k (Z.of_nat (length l))); [| lia].
  eexists. split; [reflexivity |]. split; [apply length_upd |]. intros g. destruct (Z.eqb_spec g k) as [-> | N].
  - destruct (Z.leb_spec 0 k); [| lia]. now rewrite nth_error_upd_eq.
  - destruct (Z.leb_spec 0 g); auto. rewrite nth_error_upd_neq by lia. auto.
Qed.
Section Loop.
  Context {W D : Type} (keys : list Z) (guard : bool) (other : option D) (body : nat -> W -> option (W * D)) (low : Z).
  Context (I : Z -> list nat -> W -> Prop) (Q : nat -> D -> Prop).
  Hypothesis L : if guard then low = 1%Z else low = 0%Z /\ Forall (fun k => 0 <= k)%Z keys.
  Hypothesis step : forall i k w, nth_error keys i = Some k -> (low <= k)%Z -> I k (before keys k i) w ->
    exists w' d, body i w = Some (w', d) /\ I k (before keys k i ++ [i]) w' /\ Q i d.
  Lemma by_rows_from ks : forall i ws, ks = skipn i keys -> (Forall (fun k => k < Z.of_nat (length ws))%Z keys) ->
    (forall k w, (low <= k)%Z -> zrd ws k = Some w -> I k (before keys k i) w) ->
    exists out, by_rows guard other body ks i ws = Some out /\ length out = length ks /\
      forall j k, nth_error ks j = Some k -> if (k <? low)%Z then nth_error out j = Some other else exists d, nth_error out j = Some (Some d) /\ Q (i + j) d.
  Proof.
    induction ks as [| k ks IH]; intros i ws E B H; cbn [by_rows].
    - exists []. split; auto. split; auto. intros [|] ? ?; discriminate.
    - assert (Ek : nth_error keys i = Some k) by (rewrite <- (Nat.add_0_r i), <- nth_error_skipn, <- E; reflexivity).
      assert (E' : ks = skipn (S i) keys).
      { clear - E. revert i E. induction keys as [| a l IHl]; intros i E. { destruct i; discriminate. } destruct i; [now injection E |]. apply IHl. exact E. }
      pose proof (nth_error_In _ _ Ek) as Ik.
      destruct (guard && (k <? 1)%Z) eqn:G.
      + apply andb_prop in G as [-> G]. cbn in L. subst low. apply Z.ltb_lt in G.
        destruct (IH (S i) ws E' B) as (out & Er & Lr & Hr).
        { intros g w Hg Hw. rewrite before_S, (has_key_at _ _ _ g Ek). destruct (Z.eqb_spec k g); [lia |]. rewrite app_nil_r. auto. }
        rewrite Er. exists (other :: out). split; auto. split; [cbn; lia |]. intros [| j] k'; cbn.
        * intros [= <-]. destruct (Z.ltb_spec k 1); [auto | lia].
        * intros Hj. specialize (Hr j k' Hj). destruct (k' <? 1)%Z; auto. destruct Hr as (d & ? & ?). exists d. split; auto. replace (i + S j) with (S i + j) by lia. auto.
      + assert (Lk : (low <= k)%Z). { destruct guard; [subst low; cbn in G; apply Z.ltb_ge in G; lia |]. destruct L as [-> F]. rewrite Forall_forall in F. now apply F. }
        assert (L0 : (0 <= low)%Z) by (destruct guard; [lia | destruct L; lia]).
        rewrite Forall_forall in B. pose proof (B k Ik) as Bk.
        destruct (zrd ws k) as [w |] eqn:Ew. 2: { unfold zrd in Ew. destruct (Z.leb_spec 0 k); [| lia]. apply nth_error_None in Ew. lia. }
        destruct (step i k w Ek Lk (H k w Lk Ew)) as (w' & d & Es & Hi & Hq). rewrite Es. cbn [fst snd].
        destruct (zwr_ok ws k w' w Ew) as (ws2 & E2 & L2 & H2). rewrite E2.
        destruct (IH (S i) ws2 E') as (out & Er & Lr & Hr).
        { rewrite L2. now apply Forall_forall. }
        { intros g v Hg. rewrite H2, before_S, (has_key_at _ _ _ g Ek). destruct (Z.eqb_spec g k) as [-> | N].
          - intros [= <-]. rewrite Z.eqb_refl. auto.
          - intros Hv. destruct (Z.eqb_spec k g); [lia |]. rewrite app_nil_r. auto. }
        rewrite Er. exists (Some d :: out). split; auto. split; [cbn; lia |]. intros [| j] k'; cbn.
        * intros [= <-]. destruct (Z.ltb_spec k low); [lia |]. exists d. rewrite Nat.add_0_r. auto.
        * intros Hj. specialize (Hr j k' Hj). destruct (k' <? low)%Z; auto. destruct Hr as (d' & ? & ?). exists d'. split; auto. replace (i + S j) with (S i + j) by lia. auto.
  Qed.
  Lemma by_rows_ok ws : (Forall (fun k => k < Z.of_nat (length ws))%Z keys) -> (forall k w, (low <= k)%Z -> zrd ws k = Some w -> I k [] w) ->
    exists out, by_rows guard other body keys 0 ws = Some out /\ by_group low keys other Q out.
  Proof. intros B H. destruct (by_rows_from keys 0 ws eq_refl B H) as (out & E & Lo & R). exists out. split; auto. split; auto. Qed.
End Loop.
Lemma bins_read {W} n (w x : W) k : zrd (bins n w) k = Some x -> x = w.
Proof. unfold zrd, bins. destruct (0 <=? k)%Z; [| discriminate]. intros H. apply nth_error_In in H. now apply repeat_spec in H. Qed.
Lemma bins_length {W} n (w : W) : (0 <= n)%Z -> Z.of_nat (length (bins n w)) = (n + 1)%Z.
Proof. intros. unfold bins. rewrite repeat_length. lia. Qed.

(** ** since *)
Lemma since_snoc reset l s j : since reset l s -> since reset (l ++ [j]) (if reset j then [j] else s ++ [j]).
Proof.
  intros H. destruct (reset j) eqn:E. { apply since_last; auto. } destruct H as [l F | p a s Ea F].
  - apply since_all. apply Forall_app. auto.
  - rewrite <- app_assoc. cbn. apply (since_last reset p a (s ++ [j])); auto. apply Forall_app. auto.
Qed.
Lemma since_nil reset : since reset [] [].
Proof. now apply since_all. Qed.
Lemma since_sub reset l s j : since reset l s -> In j s -> In j l.
Proof. intros Hs Hj. destruct Hs; auto. apply in_or_app. now right. Qed.
Lemma since_none l s : since (fun _ => false) l s -> s = l.
Proof. intros [? ? | p a s' H ?]; [auto | discriminate]. Qed.
Lemma picked_snoc {A} (src : list A) rows vs j x : picked src rows vs -> nth_error src j = Some x -> picked src (rows ++ [j]) (vs ++ [x]).
Proof. unfold picked. intros H E. rewrite !map_app, H. cbn. now rewrite E. Qed.
Lemma picked_one {A} (src : list A) j x : nth_error src j = Some x -> picked src [j] [x].
Proof. unfold picked. cbn. now intros ->. Qed.
Lemma on_at d l j b : nth_error l j = Some b -> on d (Some l) j = b.
Proof. cbn. intros H. now apply nth_error_nth. Qed.
Lemma nth_ok {A} (l : list A) n i : length l = n -> i < n -> exists x, nth_error l i = Some x.
Proof. intros <- H. destruct (nth_error l i) eqn:E; eauto. apply nth_error_None in E. lia. Qed.

(** ** A loop whose bins hold a function of the included values since the last reset *)
Section Run.
  Context {T D W : Type} (keys : list Z) (src : list T) (im rm : option (list bool)) (P : list T -> D -> Prop) (J : list T -> W -> Prop).
  Context (w0 : W) (take : bool -> W -> T -> W) (out : W -> D) (n low : Z) (guard : bool) (other : option D) (body : nat -> W -> option (W * D)).
  Hypothesis L : if guard then low = 1%Z else low = 0%Z /\ Forall (fun k => 0 <= k)%Z keys.
  Hypothesis N : (0 <= n)%Z.
  Hypothesis B : Forall (fun k => k <= n)%Z keys.
  Hypothesis Ls : length src = length keys.
  Hypothesis J0 : J [] w0.
  Hypothesis Jout : forall vs w, J vs w -> P vs (out w).
  Hypothesis Jtake : forall vs w x, J vs w -> J (vs ++ [x]) (take false w x).
  Hypothesis Jreset : forall vs w x, J vs w -> J [x] (take true w x).
  Hypothesis Hb : forall i w x, i < length keys -> nth_error src i = Some x ->
    body i w = Some (if on true im i then (take (on false rm i) w x, out (take (on false rm i) w x)) else (w, out w)).
  Lemma run_ok : exists res, by_rows guard other body keys 0 (bins n w0) = Some res /\ by_group low keys other (run_row keys src im rm P) res.
  Proof.
    apply (by_rows_ok keys guard other body low
      (fun k rows w => exists s vs, since (on false rm) (filter (on true im) rows) s /\ picked src s vs /\ J vs w)
      (run_row keys src im rm P) L).
    - intros i k w Ek Lk (s & vs & S1 & P1 & H). pose proof (nth_error_Some_lt _ _ _ Ek) as Hi.
      destruct (nth_ok src _ i Ls Hi) as (x & Ex). rewrite (Hb i w x Hi Ex).
      assert (K : forall w', (exists s vs, since (on false rm) (filter (on true im) (before keys k i ++ [i])) s /\ picked src s vs /\ J vs w') -> run_row keys src im rm P i (out w')).
      { intros w' (s' & vs' & A1 & A2 & A3) g Eg. assert (g = k) as -> by congruence. exists s', vs'. rewrite before_S, (has_key_at _ _ _ k Ek), Z.eqb_refl. auto. }
      destruct (on true im i) eqn:Ei.
      + eexists _, _. split; [reflexivity |].
        assert (G : exists s vs, since (on false rm) (filter (on true im) (before keys k i ++ [i])) s /\ picked src s vs /\ J vs (take (on false rm i) w x)).
        { rewrite filter_app. cbn [filter]. rewrite Ei. pose proof (since_snoc _ _ _ i S1) as S2. destruct (on false rm i); eexists _, _; (split; [exact S2 | split]).
          - apply picked_one. exact Ex.
          - eauto.
          - apply picked_snoc; [exact P1 | exact Ex].
          - auto. }
        split; auto.
      + eexists _, _. split; [reflexivity |].
        assert (G : exists s vs, since (on false rm) (filter (on true im) (before keys k i ++ [i])) s /\ picked src s vs /\ J vs w).
        { exists s, vs. rewrite filter_app. cbn [filter]. rewrite Ei, app_nil_r. auto. }
        split; auto.
    - rewrite bins_length by auto. eapply Forall_impl; [| exact B]. cbn. lia.
    - intros k w _ Hw. apply bins_read in Hw. subst w. exists [], []. split; [apply since_nil |]. split; [reflexivity |]. auto.
  Qed.
End Run.
Section Ops.
  Context {T U : Type} (keys : list Z) (src : list T) (n : Z) (im rm : option (list bool)).
  Hypothesis N : (0 <= n)%Z.
  Hypothesis B : Forall (fun k => k <= n)%Z keys.
  Hypothesis Ls : length src = length keys.
  Hypothesis Li : mask_ok (length keys) im.
  Hypothesis Lr : mask_ok (length keys) rm.
  Lemma CumOp_ok (inv : U) conv zero add : exists res, CumOp keys src n im rm inv conv zero add = Some res /\ by_group 1 keys (Some inv) (run_row keys src im rm (op_of conv zero add)) res.
  Proof.
    unfold CumOp, op_of. destruct im as [il |], rm as [rl |]; cbn [mask_ok] in *;
      apply (run_ok keys src _ _ (op_of conv zero add) (fun vs w => w = total zero conv add vs) zero (fun r w x => add (if r then zero else w) (conv x)) (fun w => w) n 1 true); auto;
      try (intros vs w x ->; unfold total; rewrite fold_left_app; reflexivity); try (intros vs w x _; reflexivity);
      intros i w x Hi Ex; rewrite Ex; cbn [on].
    - destruct (nth_ok il _ i Li Hi) as (b & Eb), (nth_ok rl _ i Lr Hi) as (r & Er). rewrite Eb, Er, (nth_error_nth _ _ _ Eb), (nth_error_nth _ _ _ Er). now destruct b.
    - destruct (nth_ok il _ i Li Hi) as (b & Eb). rewrite Eb, (nth_error_nth _ _ _ Eb). now destruct b.
    - destruct (nth_ok rl _ i Lr Hi) as (r & Er). now rewrite Er, (nth_error_nth _ _ _ Er).
    - reflexivity.
  Qed.
  (** the number of included rows so far; the counter stays below 2^31 *)
  Lemma before_len g i : length (before keys g i) <= i.
  Proof. unfold before. rewrite <- (seq_length i 0) at 2. generalize (seq 0 i). intros l. induction l as [| a l IH]; cbn; auto. destruct (has_key keys g a); cbn; lia. Qed.
  Lemma FindNth_ok : (Z.of_nat (length keys) < 2 ^ 31)%Z -> exists res, FindNth keys n im = Some res /\ by_group 1 keys (Some 0%Z) (nth_of keys im) res.
  Proof.
    intros Small. unfold FindNth.
    assert (FL : forall f (l : list nat), length (filter f l) <= length l) by (intros f l; induction l as [| a l IH]; cbn; auto; destruct (f a); cbn; lia).
    assert (G : forall body, (forall i w, i < length keys -> (0 <= w < Z.of_nat (length keys))%Z -> body i w = Some (if on true im i then (w + 1, w + 1)%Z else (w, 0%Z))) ->
      exists res, by_rows true (Some 0%Z) body keys 0 (bins n 0%Z) = Some res /\ by_group 1 keys (Some 0%Z) (nth_of keys im) res).
    { intros body Hb. apply (by_rows_ok keys true (Some 0%Z) body 1 (fun k rows w => w = Z.of_nat (length (filter (on true im) rows))) (nth_of keys im) eq_refl).
      - intros i k w Ek Lk ->. pose proof (nth_error_Some_lt _ _ _ Ek) as Hi. pose proof (FL (on true im) (before keys k i)). pose proof (before_len k i). rewrite Hb by lia.
        assert (E : Z.of_nat (length (filter (on true im) (before keys k i ++ [i]))) = if on true im i then (Z.of_nat (length (filter (on true im) (before keys k i))) + 1)%Z else Z.of_nat (length (filter (on true im) (before keys k i)))).
        { rewrite filter_app, app_length. cbn [filter]. destruct (on true im i); cbn [length]; lia. }
        destruct (on true im i) eqn:Ei; eexists _, _; (split; [reflexivity |]); (split; [now rewrite E |]); intros g Eg; assert (g = k) as -> by congruence;
          rewrite Ei, ?before_S, ?(has_key_at _ _ _ k Ek), ?Z.eqb_refl, ?E; auto.
      - rewrite bins_length by auto. eapply Forall_impl; [| exact B]. cbn. lia.
      - intros k w _ Hw. apply bins_read in Hw. now subst w. }
    assert (Bu : forall w, (0 <= w < Z.of_nat (length keys))%Z -> bump w = Some (w + 1)%Z). { intros w Hw. unfold bump. destruct (Z.ltb_spec (w + 1) (2 ^ 31)); [auto | lia]. }
    destruct im as [il |]; apply G; intros i w Hi Hw; cbn [on mask_ok] in *.
    - destruct (nth_ok il _ i Li Hi) as (b & Eb). rewrite Eb, (nth_error_nth _ _ _ Eb). destruct b; auto. now rewrite Bu.
    - now rewrite Bu.
  Qed.
End Ops.

Section Extremes.
  Context {T : Type} (keys : list Z) (src : list T) (n : Z) (im rm : option (list bool)) (inv : T) (valid : T -> bool) (compare : T -> T -> bool).
  Hypothesis N : (0 <= n)%Z.
  Hypothesis B : Forall (fun k => k <= n)%Z keys.
  Hypothesis Ls : length src = length keys.
  Hypothesis Li : mask_ok (length keys) im.
  Hypothesis Lr : mask_ok (length keys) rm.
  Hypothesis V : valid inv = false.
  Hypothesis O : order_ok valid compare.
  Notation low := (if plain im rm then 0%Z else 1%Z).
  Hypothesis K : plain im rm = true -> Forall (fun k => 0 <= k)%Z keys.

  Lemma extreme_snoc l d x : Forall (fun y => valid y = true) (l ++ [x]) -> extreme_of compare l d -> extreme_of compare (l ++ [x]) (if compare x d then x else d).
  Proof.
    intros F [Hd Hm]. destruct O as (Irr & Tr & Ntr). rewrite Forall_forall in F. destruct (compare x d) eqn:E.
    - split; [apply in_or_app; right; now left |]. intros y Hy. apply in_app_or in Hy as [Hy | [-> | []]]; [| apply Irr].
      destruct (compare y x) eqn:Eyx; auto. exfalso. specialize (Tr _ _ _ Eyx E). specialize (Hm _ Hy). congruence.
    - split; [apply in_or_app; now left |]. intros y Hy. apply in_app_or in Hy as [Hy | [<- | []]]; auto.
  Qed.
  Lemma nan_take_ok vs w x : nan_extreme valid compare vs w -> nan_extreme valid compare (vs ++ [x]) (nan_take valid compare w x).
  Proof.
    unfold nan_extreme, nan_take. rewrite filter_app. cbn [filter]. destruct (valid x) eqn:Vx; [| now rewrite app_nil_r].
    pose proof (fun y => proj1 (filter_In valid y vs)) as F. destruct (filter valid vs) as [| a l] eqn:E.
    - intros ->. cbn. split; [now left |]. intros y [<- | []]. apply O.
    - intros H. assert (valid w = true) as -> by (apply F, H). cbn [negb orb app]. change (a :: l ++ [x]) with ((a :: l) ++ [x]). apply extreme_snoc; auto.
      apply Forall_app. split; [| repeat constructor; auto]. apply Forall_forall. intros y Hy. now apply F.
  Qed.
  Lemma nan_one x : nan_extreme valid compare [x] x.
  Proof. unfold nan_extreme. cbn. destruct (valid x) eqn:E; auto. split; [now left |]. intros y [<- | []]. apply O. Qed.
  Lemma CumNanExtreme_ok : exists res, CumNanExtreme keys src n im rm inv valid compare = Some res /\ by_group low keys None (run_row keys src im rm (nan_extreme valid compare)) res.
  Proof.
    unfold CumNanExtreme. destruct im as [il |], rm as [rl |]; cbn [mask_ok plain] in *;
      (eapply (run_ok keys src _ _ (nan_extreme valid compare) (nan_extreme valid compare) inv (fun r w x => if r then x else nan_take valid compare w x) (fun w => w) n); auto;
      try (intros; apply nan_take_ok; assumption); try (intros; apply nan_one); try exact V;
      intros i w x Hi Ex; rewrite Ex; cbn [on]).
    - destruct (nth_ok il _ i Li Hi) as (b & Eb), (nth_ok rl _ i Lr Hi) as (r & Er). rewrite Eb, Er, (nth_error_nth _ _ _ Eb), (nth_error_nth _ _ _ Er). now destruct b.
    - destruct (nth_ok il _ i Li Hi) as (b & Eb). rewrite Eb, (nth_error_nth _ _ _ Eb). now destruct b.
    - destruct (nth_ok rl _ i Lr Hi) as (r & Er). now rewrite Er, (nth_error_nth _ _ _ Er).
    - reflexivity.
  Qed.
  Definition seen_inv (vs : list T) (w : T * bool) : Prop := full_extreme valid compare vs (fst w) /\ snd w = negb (length vs =? 0).
  Lemma ext_one r w x : r = true \/ snd w = false -> seen_inv [x] (ext_take valid compare r w x).
  Proof.
    intros H. unfold ext_take. replace (r || negb (snd w)) with true by (destruct H as [-> | ->]; now rewrite ?orb_true_r). split; auto. unfold full_extreme. cbn. destruct (valid x) eqn:E; cbn; auto. split; [now left |]. intros y [<- | []]. apply O.
  Qed.
  Lemma ext_more vs w x : seen_inv vs w -> seen_inv (vs ++ [x]) (ext_take valid compare false w x).
  Proof.
    intros [H Sn]. destruct vs as [| a vs]; [now apply ext_one; right |]. unfold ext_take. rewrite Sn. cbn [length Nat.eqb negb orb]. cbn [length Nat.eqb negb] in Sn.
    split. 2: { rewrite app_length. cbn [length]. replace (S (length vs) + 1 =? 0) with false by (symmetry; apply Nat.eqb_neq; lia). destruct (negb (valid x) || _); auto. }
    unfold full_extreme in *. cbn [app]. change (a :: vs ++ [x]) with ((a :: vs) ++ [x]). rewrite forallb_app. cbn [forallb]. rewrite andb_true_r.
    destruct (valid x) eqn:Vx; cbn [negb orb].
    - rewrite andb_true_r. fold (forallb valid (a :: vs)). change (valid a && forallb valid vs) with (forallb valid (a :: vs)) in *. destruct (forallb valid (a :: vs)) eqn:F.
      + assert (Fo : Forall (fun y => valid y = true) (a :: vs)) by (apply Forall_forall; now apply forallb_forall).
        assert (valid (fst w) = true) as -> by (rewrite Forall_forall in Fo; apply Fo, H). cbn [andb].
        pose proof (extreme_snoc (a :: vs) (fst w) x ltac:(apply Forall_app; auto) H). destruct (compare x (fst w)); auto.
      + rewrite H. cbn. auto.
    - rewrite andb_false_r. auto.
  Qed.
  Lemma CumExtreme_ok : exists res, CumExtreme keys src n im rm inv valid compare = Some res /\ by_group low keys None (run_row keys src im rm (full_extreme valid compare)) res.
  Proof.
    unfold CumExtreme. destruct im as [il |], rm as [rl |]; cbn [mask_ok plain] in *;
      (eapply (run_ok keys src _ _ (full_extreme valid compare) seen_inv (inv, false) (ext_take valid compare) fst n); auto;
      try (intros; apply ext_more; assumption); try (intros; apply ext_one; now left); try (intros vs w []; assumption); try (split; [exact V | reflexivity]);
      intros i w x Hi Ex; rewrite Ex; cbn [on]).
    - destruct (nth_ok il _ i Li Hi) as (b & Eb), (nth_ok rl _ i Lr Hi) as (r & Er). rewrite Eb, Er, (nth_error_nth _ _ _ Eb), (nth_error_nth _ _ _ Er). now destruct b.
    - destruct (nth_ok il _ i Li Hi) as (b & Eb). rewrite Eb, (nth_error_nth _ _ _ Eb). now destruct b.
    - destruct (nth_ok rl _ i Lr Hi) as (r & Er). now rewrite Er, (nth_error_nth _ _ _ Er).
    - reflexivity.
  Qed.
End Extremes.
