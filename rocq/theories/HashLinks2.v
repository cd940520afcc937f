(** Unique rows, rolling keys and all links of MultiKeyHash. *)
From Verif Require Import Base Mem MemLemmas Par HashModel HashTable HashSpec HashProofs HashMember HashGroup HashLinks.
Local Open Scope Z_scope.

Lemma somes_new {P} size (p : P) : ~ In p (somes (new_table size)).
Proof.
  intros Hp. apply in_somes in Hp as (s & Hs). apply zrd_inv in Hs as (_ & Hs). unfold new_table in Hs.
  rewrite nth_error_repeat' in Hs. now destruct (Nat.ltb _ _).
Qed.

Lemma new_length {P} size : 0 <= size -> Z.of_nat (length (@new_table P size)) = size.
Proof. intros H. unfold new_table. rewrite repeat_length. lia. Qed.

(** ** Unique *)

Section Uniq.
  Context {K : Type} (keq : K -> K -> bool) (Hkeq : forall x y, keq x y = true <-> x = y) (H : Z -> K -> Z).
  Context (rows : list (K * bool)) (size : Z) (Hsize : 0 <= size) (HH : forall i x, kept rows i x -> 0 <= H size x < size).

  Record uinv (pre : list (K * bool)) (st : list (option (K * Z)) * Z * list Z * list Z) : Prop := {
    ui_len : Z.of_nat (length (fst (fst (fst st)))) = size;
    ui_inv : tinv fst (H size) (fst (fst (fst st)));
    ui_row : snd (fst (fst st)) = Z.of_nat (length pre);
    ui_grp : exists idx, grouped pre idx (snd (fst st)) /\ sizes idx (snd (fst st)) (snd st) /\
               forall p, In p (somes (fst (fst (fst st)))) -> exists r u x, p = (x, Z.of_nat u) /\ first_row pre r x /\
                 nth_error (snd (fst st)) u = Some (Z.of_nat r);
    ui_all : forall i x, kept pre i x -> exists p, In p (somes (fst (fst (fst st)))) /\ fst p = x
  }.

  Lemma uniq_step_ok pre x keep post st : rows = pre ++ (x, keep) :: post -> uinv pre st ->
    okt (gb_small rows size) (uinv (pre ++ [(x, keep)])) (uniq_step keq H size st x keep).
  Proof.
    intros Er G. destruct st as (((t & i) & first) & cnt). pose proof G as [L I R (idx & Gr & Ct & S) A]. cbn [fst snd] in *. subst i.
    assert (Li : length idx = length pre) by apply Gr.
    assert (Lr : Z.of_nat (length pre) + 1 = Z.of_nat (length (pre ++ [(x, keep)]))) by (rewrite app_length; cbn; lia).
    unfold uniq_step. destruct keep.
    - assert (Ux : kept rows (length pre) x).
      { rewrite Er. unfold kept. rewrite nth_error_app2, Nat.sub_diag by auto. reflexivity. }
      destruct (probe_inv fst (H size) t (fun p => Some (keq x (fst p))) x I) as (r & -> & F).
      { rewrite L. eapply HH; eauto. }
      { intros p Hp. exists (keq x (fst p)). split; auto. rewrite Hkeq. split; congruence. }
      cbn [obind]. inversion F as [s p Ho Hp Ek|s Es Nk Ti|Nk Fu]; subst r.
      + destruct (S p Hp) as (r & u & y & -> & Fr & Hr). cbn in Ek. subst y. pose proof Ct as (Lc & _).
        destruct (nth_error_lt cnt u) as (n & En). { rewrite Lc. now apply nth_error_Some_lt in Hr. }
        rewrite (zrd_some cnt), Nat2Z.id, En by lia. cbn [lift obind].
        rewrite zwr_some by (apply nth_error_Some_lt in En; lia). cbn [lift obind okt]. rewrite Nat2Z.id.
        split; cbn [fst snd]; auto.
        * exists (idx ++ [Z.of_nat u + 1]). split; [eapply grouped_old; eauto|]. split; [now apply sizes_old|].
          intros q Hq. destruct (S q Hq) as (r' & u' & y & -> & Fr' & Hr'). exists r', u', y. split; auto. split; auto. now apply first_row_app.
        * intros i y Hy. apply kept_app in Hy as [Hy|(_ & Hy)]; [eauto|]. inversion Hy; subst y. exists (x, Z.of_nat u). auto.
      + cbn [okt]. assert (Hn : forall j, ~ kept pre j x).
        { intros j C'. destruct (A j x C') as (p & Hp & Ep). now apply (Nk p Hp). }
        pose proof (grouped_fresh _ _ _ Gr) as Hf.
        split; cbn [fst snd]; auto.
        * now rewrite store_length.
        * exists (idx ++ [Z.of_nat (length first) + 1]). split; [rewrite <- Li; now apply grouped_new|]. split; [now apply sizes_new|].
          intros q Hq. apply in_somes_insert in Hq as [-> |Hq]; auto.
          -- exists (length pre), (length first), x. split; auto. split; [|now apply nth_app_new].
             split; [apply kept_app; auto|]. intros j Hj C'. apply kept_app in C' as [C'|(-> & _)]; [now apply (Hn j)|lia].
          -- destruct (S q Hq) as (r' & u' & y & -> & Fr' & Hr'). exists r', u', y. split; auto. split; [now apply first_row_app|now apply nth_app_old].
        * intros i y Hy. apply kept_app in Hy as [Hy|(_ & Hy)].
          -- destruct (A i y Hy) as (p & Hp & Ep). exists p. split; auto. apply in_somes_insert; auto.
          -- inversion Hy; subst y. eexists. split; [apply in_somes_insert; auto|auto].
      + cbn [okt]. intros (U & HU & HL). apply (not_full fst (H size) t U I); auto; [|lia].
        intros p Hp. destruct (S p Hp) as (r & u & y & -> & (Ky & _) & _). apply HU.
        apply in_map_iff. exists (y, true). split; auto. apply filter_In. split; auto. eapply nth_error_In. eapply kept_pre; [exact Er|exact Ky].
    - cbn [okt]. split; cbn [fst snd]; auto.
      + exists (idx ++ [0]). split; [now apply grouped_skip|]. split; [apply sizes_skip; auto; lia|].
        intros q Hq. destruct (S q Hq) as (r' & u' & y & -> & Fr' & Hr'). exists r', u', y. split; auto. split; auto. now apply first_row_app.
      + intros i y Hy. apply kept_app in Hy as [Hy|(_ & Hy)]; [eauto|discriminate].
  Qed.

  Lemma uniq_loop_ok post : forall pre st, rows = pre ++ post -> uinv pre st -> okt (gb_small rows size) (uinv rows) (uniq_loop keq H size st post).
  Proof.
    induction post as [|(x, keep) post IH]; intros pre st E G; cbn [uniq_loop].
    - cbn. rewrite app_nil_r in E. rewrite E. auto.
    - eapply okt_bind; [eapply uniq_step_ok; eauto|]. intros st' G'. apply (IH (pre ++ [(x, keep)])); auto. rewrite <- app_assoc. auto.
  Qed.

  Lemma uniq_ok : okt (gb_small rows size) (fun r => exists idx, grouped rows idx (fst r) /\ sizes idx (fst r) (snd r)) (Unique keq H size rows).
  Proof.
    unfold Unique. eapply okt_bind.
    - apply (uniq_loop_ok rows []); auto. split; cbn [fst snd].
      + now apply new_length.
      + apply tinv_new.
      + reflexivity.
      + exists []. split; [apply grouped_nil|]. split; [split; auto; intros [|g] c E; discriminate|]. intros p Hp. now apply somes_new in Hp.
      + intros i x E. unfold kept in E. destruct i; discriminate.
    - intros (((t & i) & first) & cnt) [L I R (idx & Gr & Ct & S) A]. cbn in *. eauto.
  Qed.
End Uniq.

(** ** MultiKeyRolling *)

Lemma kept_all {K} (keys : list K) i k : kept (all_kept keys) i k <-> nth_error keys i = Some k.
Proof. unfold kept, all_kept. rewrite nth_error_map. destruct (nth_error keys i); cbn; split; congruence. Qed.

Lemma all_kept_app {K} (a b : list K) : all_kept (a ++ b) = all_kept a ++ all_kept b.
Proof. apply map_app. Qed.

Lemma all_kept_length {K} (a : list K) : length (all_kept a) = length a.
Proof. apply map_length. Qed.

Section Rolling.
  Context {K : Type} (keq : K -> K -> bool) (Hkeq : forall x y, keq x y = true <-> x = y) (H : Z -> K -> Z).
  Context (size : Z) (rows : list K) (HH : forall x, In x rows -> 0 <= H size x < size).

  Record rinv (pre : list K) (os : list (Z * Z)) (st : list (option (K * Z * Z)) * Z) : Prop := {
    ri_len : Z.of_nat (length (fst st)) = size;
    ri_inv : tinv (fun p => fst (fst p)) (H size) (fst st);
    ri_grp : exists first, rolls pre os first /\ snd st = Z.of_nat (length first) /\
               forall p, In p (somes (fst st)) -> exists r u x, p = (x, Z.of_nat u, Z.of_nat (countb (Z.eqb (Z.of_nat u + 1)) (map (fun o => fst o + 1) os))) /\
                 first_row (all_kept pre) r x /\ nth_error first u = Some (Z.of_nat r);
    ri_all : forall x, In x pre -> exists p, In p (somes (fst st)) /\ fst (fst p) = x
  }.

  Lemma first_key (pre : list K) r x : first_row (all_kept pre) r x -> In x pre.
  Proof. intros (E & _). apply (proj1 (kept_all pre r x)) in E. eapply nth_error_In; eauto. Qed.

  Lemma roll_step_ok pre os st x post : rows = pre ++ x :: post -> rinv pre os st ->
    okt (~ fewer_than size rows) (fun r => rinv (pre ++ [x]) (os ++ [snd r]) (fst r)) (roll_step keq H size st x).
  Proof.
    intros Er G. destruct st as (t & nu). pose proof G as [L I (first & (Gr & Rn) & Nu & S) A]. cbn [fst snd] in *. subst nu.
    set (idx := map (fun o => fst o + 1) os) in *.
    unfold roll_step.
    assert (Lp : length idx = length pre). { unfold idx. pose proof (gr_length _ _ _ Gr) as E. rewrite all_kept_length in E. exact E. }
    destruct (probe_inv (fun p : K * Z * Z => fst (fst p)) (H size) t (fun p => Some (keq x (fst (fst p)))) x I) as (r & -> & F).
    { rewrite L. apply HH. rewrite Er. apply in_elt. }
    { intros p Hp. exists (keq x (fst (fst p))). split; auto. rewrite Hkeq. split; congruence. }
    assert (App : all_kept (pre ++ [x]) = all_kept pre ++ [(x, true)]) by (rewrite all_kept_app; reflexivity).
    cbn [obind]. inversion F as [s p Ho Hp Ek|s Es Nk Ti|Nk Fu]; subst r.
    - destruct (S p Hp) as (r & u & y & Ep & Fr & Hr). subst p. cbn in Ek. subst y. cbn [okt fst snd].
      set (n := countb (Z.eqb (Z.of_nat u + 1)) idx) in *.
      assert (N : NoDup (map (fun p : K * Z * Z => fst (fst p)) (somes t))) by apply I.
      split; cbn [fst snd].
      + now rewrite store_length.
      + eapply tinv_replace; eauto.
      + exists first. rewrite !map_app. cbn [map fst snd]. fold idx. split; [split|split; auto].
        * rewrite map_app. cbn [map fst]. fold idx. rewrite App. eapply grouped_old; eauto.
        * rewrite !map_app. cbn [map fst snd]. fold idx. apply running_snoc; auto.
        * intros q Hq. apply (in_somes_replace (fun p : K * Z * Z => fst (fst p)) t s _ _ q Ho N) in Hq as [-> |(Hq & Nq)].
          -- exists r, u, x. split; [|split; [rewrite App; now apply first_row_app|auto]].
             f_equal. rewrite countb_app. cbn [countb]. rewrite Z.eqb_refl. fold n. lia.
          -- destruct (S q Hq) as (r' & u' & y & -> & Fr' & Hr'). exists r', u', y. split; [|split; [rewrite App; now apply first_row_app|auto]].
             f_equal. rewrite countb_app. cbn [countb]. destruct (Z.eqb_spec (Z.of_nat u' + 1) (Z.of_nat u + 1)) as [E|_]; [|lia].
             exfalso. apply Nq. cbn. assert (u' = u) by lia. subst u'. assert (r' = r) by (rewrite Hr in Hr'; inversion Hr'; lia). subst r'.
             destruct Fr as (Fr & _), Fr' as (Fr' & _). unfold kept in *. congruence.
      + intros y Hy. assert (Hx : exists p, In p (somes (store t s (x, Z.of_nat u, Z.of_nat n + 1))) /\ fst (fst p) = x).
        { eexists. split; [apply (in_somes_replace (fun p : K * Z * Z => fst (fst p)) t s _ _ _ Ho N); left; reflexivity|auto]. }
        apply in_app_or in Hy as [Hy|[<-|[]]]; [|exact Hx].
        destruct (A y Hy) as (p' & Hp' & Ep'). destruct (keq y x) eqn:Eyx.
        * apply Hkeq in Eyx. subst y. rewrite Eyx. exact Hx.
        * exists p'. split; auto. apply (in_somes_replace (fun p : K * Z * Z => fst (fst p)) t s _ _ p' Ho N). right. split; auto. rewrite Ep'. cbn.
          intros C. subst y. rewrite C in Eyx. assert (keq x x = true) by now apply Hkeq. congruence.
    - cbn [okt fst snd]. assert (Hn : forall j, ~ kept (all_kept pre) j x).
      { intros j C'. apply (proj1 (kept_all pre j x)) in C'. destruct (A x) as (p & Hp & Ep); [eapply nth_error_In; eauto|]. now apply (Nk p Hp). }
      pose proof (grouped_fresh _ _ _ Gr) as Hf.
      split; cbn [fst snd].
      + now rewrite store_length.
      + apply Ti. auto.
      + exists (first ++ [Z.of_nat (length idx)]). rewrite !map_app. cbn [map fst snd]. fold idx. split; [split|split].
        * rewrite map_app. cbn [map fst]. fold idx. rewrite App. now apply grouped_new.
        * rewrite !map_app. cbn [map fst snd]. fold idx. apply running_snoc; auto. rewrite countb_notin; auto.
        * rewrite app_length. cbn. lia.
        * intros q Hq. apply in_somes_insert in Hq as [-> |Hq]; auto.
          -- exists (length idx), (length first), x. split; [|split; [|now apply nth_app_new]].
             ++ f_equal. rewrite countb_app, countb_notin by auto. cbn [countb]. rewrite Z.eqb_refl. reflexivity.
             ++ rewrite App. split; [apply kept_app; right; split; auto; rewrite all_kept_length; auto|].
                intros j Hj C'. apply kept_app in C' as [C'|(-> & _)]; [now apply (Hn j)|rewrite all_kept_length in Hj; lia].
          -- destruct (S q Hq) as (r' & u' & y & -> & Fr' & Hr'). exists r', u', y. split; [|split; [rewrite App; now apply first_row_app|now apply nth_app_old]].
             f_equal. rewrite countb_app. cbn [countb]. apply nth_error_Some_lt in Hr'.
             destruct (Z.eqb_spec (Z.of_nat u' + 1) (Z.of_nat (length first) + 1)) as [E|_]; lia.
      + intros y Hy. apply in_app_or in Hy as [Hy|[<-|[]]].
        * destruct (A y Hy) as (p & Hp & Ep). exists p. split; auto. apply in_somes_insert; auto.
        * eexists. split; [apply in_somes_insert; auto|auto].
    - cbn [okt]. intros (U & HU & HL). apply (not_full (fun p : K * Z * Z => fst (fst p)) (H size) t U I); auto; [|lia].
      intros p Hp. destruct (S p Hp) as (r & u & y & -> & Fr & _). cbn. apply HU. rewrite Er. apply in_or_app. left. eapply first_key; eauto.
  Qed.

  Lemma rolling_ok post : forall pre os st tl, rows = pre ++ post ++ tl -> rinv pre os st ->
    okt (~ fewer_than size rows) (fun r => rinv (pre ++ post) (os ++ snd r) (fst r)) (MultiKeyRolling keq H size st post).
  Proof.
    induction post as [|x post IH]; intros pre os st tl E G; cbn [MultiKeyRolling].
    - cbn. rewrite !app_nil_r. destruct st. auto.
    - eapply okt_bind; [eapply (roll_step_ok pre os st x (post ++ tl)); eauto|]. intros ((t & nu) & o) G'. cbn [fst snd] in G'.
      eapply okt_bind; [apply (IH (pre ++ [x]) (os ++ [o]) (t, nu) tl); auto; now rewrite <- app_assoc|].
      intros ((t' & nu') & os') G''. cbn [fst snd okt] in *. rewrite <- !app_assoc in G''. exact G''.
  Qed.

  Lemma calls_ok calls : forall pre os st, rows = pre ++ concat calls -> rinv pre os st ->
    okt (~ fewer_than size rows) (fun r => exists st', rinv rows (os ++ r) st') (RollingCalls keq H size st calls).
  Proof.
    induction calls as [|c calls IH]; intros pre os st E G; cbn [RollingCalls].
    - cbn in *. rewrite !app_nil_r in *. subst pre. eauto.
    - cbn [concat] in E. eapply okt_bind; [apply (rolling_ok c pre os st (concat calls)); auto|]. intros ((t & nu) & o) G'. cbn [fst snd] in G'.
      eapply okt_bind; [apply (IH (pre ++ c) (os ++ o) (t, nu)); auto; now rewrite <- app_assoc|].
      intros os' (st' & G''). cbn [okt]. exists st'. now rewrite app_assoc.
  Qed.
End Rolling.

Lemma RollingCalls_ok {K} (keq : K -> K -> bool) (Hkeq : forall x y, keq x y = true <-> x = y) H size calls : 0 <= size ->
  (forall x, In x (concat calls) -> 0 <= H size x < size) ->
  okt (~ fewer_than size (concat calls)) (fun os => exists first, rolls (concat calls) os first) (RollingCalls keq H size (new_table size, 0) calls).
Proof.
  intros Hs HH. eapply okt_weaken; [apply (calls_ok keq Hkeq H size (concat calls) HH calls [] [])| |]; auto.
  - split; cbn [fst snd].
    + now apply new_length.
    + apply tinv_new.
    + exists []. split; [split; [apply grouped_nil|apply column_nil]|]. split; auto. intros p Hp. now apply somes_new in Hp.
    + intros x [].
  - intros os (st & [_ _ (first & R & _) _]). cbn in R. eauto.
Qed.

(** ** MultiKeyHash *)

Section LinkCols.
  Context {K : Type} (keq : K -> K -> bool) (Hkeq : forall x y, keq x y = true <-> x = y) (H : Z -> K -> Z).
  Context (rows : list K) (size : Z) (Hsize : 0 <= size) (HH : forall x, In x rows -> 0 <= H size x < size).

  Definition lkey (p : Z) : option K := zrd rows p.
  Definition lhk (o : option K) : Z := match o with Some x => H size x | None => 0 end.

  Record linv (pre : list K) (st : links) : Prop := {
    li_len : Z.of_nat (length (l_tab st)) = size;
    li_inv : tinv lkey lhk (l_tab st);
    li_grp : exists first, grouped (all_kept pre) (l_idx st) first /\ l_n st = Z.of_nat (length first);
    li_run : column (l_idx st) (running (l_idx st)) (l_run st);
    li_prev : column (l_idx st) (prev_row (l_idx st)) (l_prev st);
    li_next : column (l_idx st) (next_row (l_idx st)) (l_next st);
    li_first : column (l_idx st) (group_first (l_idx st)) (l_first st);
    li_stored : forall p, In p (somes (l_tab st)) -> exists l x g, p = Z.of_nat l /\ nth_error pre l = Some x /\ last_of (l_idx st) g l;
    li_all : forall x, In x pre -> exists p, In p (somes (l_tab st)) /\ lkey p = Some x
  }.

  Lemma lkey_row i x : nth_error rows i = Some x -> lkey (Z.of_nat i) = Some x.
  Proof. intros E. unfold lkey. now rewrite zrd_some, Nat2Z.id by lia. Qed.

  Lemma links_step_ok pre x post st : rows = pre ++ x :: post -> linv pre st ->
    okt (~ fewer_than size rows) (linv (pre ++ [x])) (links_step keq H size rows st x).
  Proof.
    intros Er G. pose proof G as [L I (first & Gr & Nu) Rn Pv Nx Fs S A]. unfold links_step.
    assert (Li : length (l_idx st) = length pre). { pose proof (gr_length _ _ _ Gr) as E. rewrite all_kept_length in E. exact E. }
    assert (Ux : nth_error rows (length pre) = Some x) by (rewrite Er, nth_error_app2, Nat.sub_diag by auto; reflexivity).
    assert (Kpre : forall i y, nth_error pre i = Some y -> nth_error rows i = Some y).
    { intros i y E. rewrite Er, nth_error_app1; auto. now apply nth_error_Some_lt in E. }
    assert (App : all_kept (pre ++ [x]) = all_kept pre ++ [(x, true)]) by (rewrite all_kept_app; reflexivity).
    destruct (probe_inv lkey lhk (l_tab st) (row_match keq rows x) (Some x) I) as (r & Ep & F).
    { cbn. rewrite L. apply HH. eapply nth_error_In; eauto. }
    { intros p Hp. destruct (S p Hp) as (l & y & g & -> & Ky & _). pose proof (lkey_row l y (Kpre _ _ Ky)) as E.
      rewrite E. unfold lkey in E. unfold row_match. rewrite E. cbn. exists (keq x y). split; auto. rewrite Hkeq. split; congruence. }
    cbn [lhk] in Ep. rewrite Ep. cbn [obind]. clear Ep. inversion F as [s p Ho Hp Ek|s Es Nk Ti|Nk Fu]; subst r.
    - destruct (S p Hp) as (l & y & g & -> & Ky & Hlast).
      assert (y = x) by (rewrite (lkey_row l y (Kpre _ _ Ky)) in Ek; congruence). subst y.
      pose proof Hlast as (Gl & _). pose proof (in_group_lt _ _ _ Gl) as Ll.
      destruct (gr_kept _ _ _ Gr l x) as (u & r & Hu & Fr & _ & Du); [now apply kept_all|].
      assert (g = Z.of_nat u + 1) by (unfold in_group in Gl; congruence). subst g.
      pose proof Fs as (Lf & _). pose proof Rn as (Lr & _). pose proof Nx as (Ln & _).
      rewrite (zrd_some (l_idx st)), Nat2Z.id, Du by lia. cbn [lift obind].
      destruct (nth_error_lt (l_first st) l) as (f & Ef); [lia|]. rewrite (zrd_some (l_first st)), Nat2Z.id, Ef by lia. cbn [lift obind].
      destruct (nth_error_lt (l_run st) l) as (n & En); [lia|]. rewrite (zrd_some (l_run st)), Nat2Z.id, En by lia. cbn [lift obind].
      rewrite zwr_some by (rewrite app_length; cbn; lia). cbn [lift obind okt]. rewrite Nat2Z.id.
      assert (N : NoDup (map lkey (somes (l_tab st)))) by apply I.
      assert (Ekn : lkey (Z.of_nat (length (l_idx st))) = Some x) by (rewrite Li; now apply lkey_row).
      split; cbn [l_tab l_n l_idx l_run l_prev l_next l_first].
      + now rewrite store_length.
      + eapply tinv_replace; eauto. congruence.
      + exists first. split; auto. rewrite App. eapply grouped_old; eauto.
      + apply running_snoc; auto. rewrite (last_running _ _ _ _ _ Rn Hlast En). reflexivity.
      + apply (prev_snoc _ _ _ l Pv); auto.
        * intros l' Hl'. f_equal. destruct Hlast as (X & Y), Hl' as (X' & Y'). specialize (Y _ X'). specialize (Y' _ X). lia.
        * intros C. exfalso. apply C. eapply nth_error_In. exact Gl.
      + now apply next_old.
      + eapply first_old; eauto.
      + intros q Hq. apply (in_somes_replace lkey (l_tab st) s _ _ q Ho N) in Hq as [-> |(Hq & Nq)].
        * exists (length (l_idx st)), x, (Z.of_nat u + 1). split; auto. split; [rewrite Li; now apply nth_app_new|apply last_of_new].
        * destruct (S q Hq) as (l' & y & g' & -> & Ky' & Hl'). exists l', y, g'. split; auto. split; [now apply nth_app_old|].
          apply last_of_other; auto. intros E. subst g'. apply Nq. f_equal. f_equal.
          destruct Hlast as (X & Y), Hl' as (X' & Y'). specialize (Y _ X'). specialize (Y' _ X). lia.
      + intros y Hy. assert (Hx : exists p, In p (somes (store (l_tab st) s (Z.of_nat (length (l_idx st))))) /\ lkey p = Some x).
        { eexists. split; [apply (in_somes_replace lkey (l_tab st) s _ _ _ Ho N); left; reflexivity|auto]. }
        apply in_app_or in Hy as [Hy|[<-|[]]]; [|exact Hx].
        destruct (A y Hy) as (p' & Hp' & Ep'). destruct (keq y x) eqn:Eyx.
        * apply Hkeq in Eyx. subst y. exact Hx.
        * exists p'. split; auto. apply (in_somes_replace lkey (l_tab st) s _ _ p' Ho N). right. split; auto. rewrite Ep', Ek.
          intros C. inversion C; subst y. assert (keq x x = true) by now apply Hkeq. congruence.
    - cbn [okt]. assert (Hn : forall j, ~ kept (all_kept pre) j x).
      { intros j C'. apply (proj1 (kept_all pre j x)) in C'. destruct (A x) as (p & Hp & Ep); [eapply nth_error_In; eauto|]. now apply (Nk p Hp). }
      pose proof (grouped_fresh _ _ _ Gr) as Hf. rewrite Nu.
      assert (Ekn : lkey (Z.of_nat (length (l_idx st))) = Some x) by (rewrite Li; now apply lkey_row).
      split; cbn [l_tab l_n l_idx l_run l_prev l_next l_first].
      + now rewrite store_length.
      + apply Ti. auto.
      + exists (first ++ [Z.of_nat (length (l_idx st))]). split; [rewrite App; now apply grouped_new|]. rewrite app_length. cbn. lia.
      + apply running_snoc; auto. rewrite countb_notin; auto.
      + apply (prev_snoc _ _ _ 0%nat Pv); auto. intros l Hl. exfalso. apply Hf. eapply nth_error_In. apply Hl.
      + now apply next_new.
      + now apply first_new.
      + intros q Hq. apply in_somes_insert in Hq as [-> |Hq]; auto.
        * exists (length (l_idx st)), x, (Z.of_nat (length first) + 1). split; auto. split; [rewrite Li; now apply nth_app_new|apply last_of_new].
        * destruct (S q Hq) as (l' & y & g' & -> & Ky' & Hl'). exists l', y, g'. split; auto. split; [now apply nth_app_old|].
          apply last_of_other; auto. intros E. apply Hf. rewrite E. eapply nth_error_In. apply Hl'.
      + intros y Hy. apply in_app_or in Hy as [Hy|[<-|[]]].
        * destruct (A y Hy) as (p & Hp & Ep). exists p. split; auto. apply in_somes_insert; auto.
        * eexists. split; [apply in_somes_insert; auto|auto].
    - cbn [okt]. intros (U & HU & HL). apply (not_full lkey lhk (l_tab st) (map Some U) I); auto.
      + intros p Hp. destruct (S p Hp) as (l & y & g & -> & Ky & _). rewrite (lkey_row l y (Kpre _ _ Ky)). apply in_map, HU.
        eapply nth_error_In. apply Kpre. exact Ky.
      + rewrite map_length. lia.
  Qed.

  Lemma links_loop_ok post : forall pre st, rows = pre ++ post -> linv pre st -> okt (~ fewer_than size rows) (linv rows) (links_loop keq H size rows st post).
  Proof.
    induction post as [|x post IH]; intros pre st E G; cbn [links_loop].
    - cbn. rewrite app_nil_r in E. rewrite E. auto.
    - eapply okt_bind; [eapply links_step_ok; eauto|]. intros st' G'. apply (IH (pre ++ [x])); auto. rewrite <- app_assoc. auto.
  Qed.

  Lemma links_ok : okt (~ fewer_than size rows) (linv rows) (MakeHashLocationMultiKey keq H size rows).
  Proof.
    apply (links_loop_ok rows []); auto. split; cbn [l_tab l_n l_idx l_run l_prev l_next l_first]; try apply column_nil.
    - now apply new_length.
    - apply tinv_new.
    - exists []. split; auto. apply grouped_nil.
    - intros p Hp. now apply somes_new in Hp.
    - intros x [].
  Qed.
End LinkCols.

(** the second pass *)
Section Second.
  Context (idx prev next run : list Z).
  Context (Pv : column idx (prev_row idx) prev) (Nx : column idx (next_row idx) next) (Rn : column idx (running idx) run).

  Definition earlier (j k : nat) : bool := (k <? j)%nat && match nth_error idx j, nth_error idx k with Some a, Some b => a =? b | _, _ => false end.

  Lemma walk_ok fuel : forall j bkt lst count last, (j < fuel)%nat -> (j < length idx)%nat ->
    length bkt = length idx -> length lst = length idx ->
    exists bkt' lst', walk fuel prev count last (Z.of_nat j) bkt lst = Some (bkt', lst') /\ length bkt' = length idx /\ length lst' = length idx /\
      (forall k, nth_error bkt' k = if earlier j k then Some count else nth_error bkt k) /\
      (forall k, nth_error lst' k = if earlier j k then Some last else nth_error lst k).
  Proof using Pv.
    clear Nx Rn. induction fuel as [|f IH]; intros j bkt lst count last Lf Lj Lb Ll; [lia|]. cbn [walk].
    destruct Pv as (Lp & Cp). destruct (nth_error_lt prev j) as (p & Ep); [lia|].
    destruct (nth_error_lt idx j Lj) as (g & Eg).
    rewrite (zrd_some prev), Nat2Z.id, Ep by lia. destruct (Cp j p Ep g Eg) as [(q & -> & Hq & Gq & Hb)|(-> & Hb)].
    - destruct (Z.eqb_spec (Z.of_nat q) GB_INVALID) as [C|_]; [unfold GB_INVALID in C; lia|].
      rewrite !zwr_some, !Nat2Z.id by lia.
      destruct (IH q (upd bkt q count) (upd lst q last) count last) as (b' & l' & E & L1 & L2 & B1 & B2); rewrite ?length_upd; try lia.
      exists b', l'. split; auto. split; auto. split; auto.
      assert (X : forall k, earlier j k = earlier q k || (k =? q)%nat).
      { intros k. unfold earlier. rewrite Eg. unfold in_group in Gq. rewrite Gq. destruct (Nat.eqb_spec k q) as [->|Nk].
        - rewrite Gq, Z.eqb_refl, Nat.ltb_irrefl, (proj2 (Nat.ltb_lt q j)) by auto. reflexivity.
        - rewrite Bool.orb_false_r. destruct (Nat.ltb_spec k q), (Nat.ltb_spec k j); cbn; auto; try lia.
          destruct (nth_error idx k) as [c|] eqn:Ec; auto. destruct (Z.eqb_spec g c) as [->|]; auto. exfalso. apply (Hb k); [lia|exact Ec]. }
      split; intros k; [rewrite B1|rewrite B2]; rewrite X; destruct (earlier q k); cbn; auto; destruct (Nat.eqb_spec k q) as [->|Nk].
      + rewrite nth_error_upd_eq; auto. lia.
      + rewrite nth_error_upd_neq; auto.
      + rewrite nth_error_upd_eq; auto. lia.
      + rewrite nth_error_upd_neq; auto.
    - rewrite Z.eqb_refl. exists bkt, lst. split; auto. split; auto. split; auto.
      assert (X : forall k, earlier j k = false).
      { intros k. unfold earlier. rewrite Eg. destruct (Nat.ltb_spec k j) as [Lk|]; auto. cbn. destruct (nth_error idx k) as [c|] eqn:Ec; auto.
        destruct (Z.eqb_spec g c) as [->|]; auto. exfalso. apply (Hb k Lk Ec). }
      split; intros k; now rewrite X.
  Qed.

  (** rows whose group ends at row [m] or later are done *)
  Definition done (m : nat) (bkt lst : list Z) : Prop := forall k g l, in_group idx g k -> last_of idx g l -> (m <= l)%nat ->
    nth_error bkt k = Some (Z.of_nat (countb (Z.eqb g) idx)) /\ nth_error lst k = Some (Z.of_nat l).

  Lemma second_ok m : forall bkt lst, (m <= length idx)%nat -> length bkt = length idx -> length lst = length idx -> done m bkt lst ->
    exists bkt' lst', second_pass m prev next run bkt lst = Some (bkt', lst') /\ length bkt' = length idx /\ length lst' = length idx /\ done 0 bkt' lst'.
  Proof using Pv Nx Rn.
    induction m as [|m IH]; intros bkt lst Lm Lb Ll D; cbn [second_pass]; [eauto 6|].
    pose proof Nx as (Ln & Cn). pose proof Rn as (Lr & Cr).
    destruct (nth_error_lt next m) as (nx & En); [lia|]. destruct (nth_error_lt idx m) as (g & Eg); [lia|].
    rewrite (zrd_some next), Nat2Z.id, En by lia.
    destruct (Cn m nx En g Eg) as [(j & -> & Hj & Gj & _)|(-> & Hlast)].
    - destruct (Z.eqb_spec (Z.of_nat j) GB_INVALID) as [C|_]; [unfold GB_INVALID in C; lia|].
      apply IH; auto; [lia|]. intros k g' l Gk Hl Lk. apply D; auto. destruct (Nat.eq_dec l m) as [->|]; [|lia].
      destruct Hl as (Gm & Hm). assert (g' = g) by (unfold in_group in Gm; congruence). subst g'. specialize (Hm _ Gj). lia.
    - rewrite Z.eqb_refl. destruct (nth_error_lt run m) as (c & Ec); [lia|]. rewrite (zrd_some run), Nat2Z.id, Ec by lia.
      assert (Lo : last_of idx g m).
      { split; [exact Eg|]. intros j Gj. destruct (Nat.le_gt_cases j m); auto. exfalso. now apply (Hlast j). }
      pose proof (last_running _ _ _ _ _ Rn Lo Ec) as Hc.
      rewrite !zwr_some, !Nat2Z.id by lia.
      destruct (walk_ok (S (length prev)) m (upd bkt m c) (upd lst m (Z.of_nat m)) c (Z.of_nat m)) as (b' & l' & E & L1 & L2 & B1 & B2);
        rewrite ?length_upd; try lia.
      { destruct Pv as (Lp & _). lia. }
      rewrite E. apply IH; auto; [lia|].
      intros k g' l Gk Hl Lk. rewrite B1, B2.
      assert (EQ : earlier m k = true \/ k = m -> g' = g).
      { unfold earlier. rewrite Eg. intros [X| ->]; [|unfold in_group in Gk; congruence]. apply Bool.andb_true_iff in X as (_ & X).
        unfold in_group in Gk. rewrite Gk in X. now apply Z.eqb_eq in X. }
      assert (Same : g' = g -> l = m).
      { intros ->. destruct Hl as (X & Y), Lo as (X' & Y'). specialize (Y _ X'). specialize (Y' _ X). lia. }
      destruct (earlier m k) eqn:Ee.
      + rewrite (Same (EQ (or_introl eq_refl))), (EQ (or_introl eq_refl)). rewrite Hc. auto.
      + destruct (Nat.eq_dec k m) as [->|Nk].
        * rewrite !nth_error_upd_eq by lia. rewrite (Same (EQ (or_intror eq_refl))), (EQ (or_intror eq_refl)), Hc. auto.
        * rewrite !nth_error_upd_neq by auto. apply D; auto. destruct (Nat.eq_dec l m) as [->|]; [|lia]. exfalso.
          assert (g' = g) by (destruct Hl as (X & _); unfold in_group in X; congruence). subst g'.
          destruct Lo as (_ & Y). pose proof (Y k Gk). unfold earlier in Ee. rewrite Eg, (proj2 (Nat.ltb_lt k m)) in Ee by lia.
          unfold in_group in Gk. rewrite Gk, Z.eqb_refl in Ee. discriminate.
  Qed.

  Lemma last_exists g k : in_group idx g k -> exists l, last_of idx g l.
  Proof using.
    clear. revert k. induction idx as [|z l IH] using rev_ind; intros k Hk; [unfold in_group in Hk; destruct k; discriminate|].
    destruct (Z.eq_dec z g) as [->|N]; [exists (length l); apply last_of_new|].
    apply in_group_app in Hk as [Hk|(_ & Hk)]; [|congruence]. destruct (IH k Hk) as (m & Hm). exists m. now apply last_of_other.
  Qed.
End Second.

Section All.
  Context {K : Type} (keq : K -> K -> bool) (Hkeq : forall x y, keq x y = true <-> x = y) (H : Z -> K -> Z).

  Lemma MultiKeyHash_ok d size rows filt : 0 <= size -> (forall x, In x rows -> 0 <= H size x < size) ->
    okt (~ fewer_than size rows)
        (fun r => let '(idx, run, bkt, prev, next, first, lst) := r in
           (exists f, grouped (all_kept rows) idx f) /\ column idx (running idx) run /\ column idx (group_size idx) bkt /\
           column idx (prev_row idx) prev /\ column idx (next_row idx) next /\ column idx (group_first idx) first /\ column idx (group_last idx) lst)
        (MultiKeyHash keq H d size rows filt).
  Proof.
    intros Hs HH. unfold MultiKeyHash. eapply okt_bind; [now apply links_ok|]. intros st [L I (first & Gr & Nu) Rn Pv Nx Fs S A].
    assert (Li : length (l_idx st) = length rows). { pose proof (gr_length _ _ _ Gr) as E. rewrite all_kept_length in E. exact E. }
    destruct (second_ok (l_idx st) (l_prev st) (l_next st) (l_run st) Pv Nx Rn (length rows) (repeat d (length rows)) (repeat d (length rows)))
      as (b & l & E & Lb & Ll & D); rewrite ?repeat_length; try lia.
    { intros k g l Gk (Gl & _) Lk. apply in_group_lt in Gl. lia. }
    rewrite E. cbn [lift obind okt]. split; [eauto|]. split; auto. split; [|split; auto; split; auto; split; auto].
    - split; auto. intros i r Er g Gi. destruct (last_exists (l_idx st) g i Gi) as (m & Hm). destruct (D i g m Gi Hm) as (X & _); [lia|]. congruence.
    - split; auto. intros i r Er g Gi. destruct (last_exists (l_idx st) g i Gi) as (m & Hm). destruct (D i g m Gi Hm) as (_ & X); [lia|].
      exists m. split; [congruence|]. exact Hm.
  Qed.
End All.
