(** The queue of log records: its invariants. *)
From Verif Require Import Base LogModel LogSpec.

Section Proofs.
  Context {M : Type} (max : nat).
  Implicit Types th : thread M.

  Definition holds (p : cpc) : Prop := match p with CTest | CTake | CBlock => True | _ => False end.
  Definition left th : list M := match tp th with TNotify => pushes (tl (todo th)) | _ => pushes (todo th) end.
  Record inv (s : state M) : Prop := {
    i_cons : owner s = Some 0 <-> holds (cp s);
    i_hold : forall t th, nth_error (threads s) t = Some th -> tp th = THold -> owner s = Some (S t) /\ exists o r, todo th = o :: r /\ o <> Cancel;
    i_own : forall t, owner s = Some (S t) -> exists th, nth_error (threads s) t = Some th /\ tp th = THold;
    i_note : forall t th, nth_error (threads s) t = Some th -> tp th = TNotify -> exists o r, todo th = o :: r /\ o <> Clear;
    i_acc : accepted (hist s) = map snd (gone s) ++ queue s;
    i_ret : returned (rets s) = map snd (filter fst (gone s));
    i_block : cp s = CBlock -> queue s = [];
    i_take : cp s = CTake -> queue s <> [] \/ waits s = false;
    i_sleep : cp s = CSleep -> queue s <> [] -> exists t th, nth_error (threads s) t = Some th /\ tp th = TNotify }.

  Lemma accepted_snoc h t (m : M) b : accepted (h ++ [(t, m, b)]) = accepted h ++ (if b then [m] else []).
  Proof. unfold accepted. rewrite filter_app, map_app. cbn. now destruct b. Qed.
  Lemma returned_snoc (r : list (option M)) o : returned (r ++ [o]) = returned r ++ match o with Some m => [m] | None => [] end.
  Proof. unfold returned. rewrite flat_map_app. cbn. now rewrite app_nil_r. Qed.

  Lemma none_popped (q : list M) : filter fst (map (fun m => (false, m)) q) = [].
  Proof. induction q; auto. Qed.
  Local Opaque accepted returned.

  Lemma initial_inv k ps : inv (initial k ps).
  Proof.
    split; cbn; try discriminate; auto.
    - split; [discriminate | tauto].
    - intros t th E H. rewrite nth_error_map in E. destruct (nth_error ps t); [| discriminate]. cbn in E. injection E as <-. discriminate.
    - intros t th E H. rewrite nth_error_map in E. destruct (nth_error ps t); [| discriminate]. cbn in E. injection E as <-. discriminate.
  Qed.
  Lemma consumer_inv s s' : inv s -> consumer s = Some s' -> inv s'.
  Proof.
    intros [I1 I2 I3 I4 I5 I6 I7 I8 I9] E. unfold consumer in E. destruct (cp s) eqn:C; cbn [holds] in I1.
    - destruct (calls s); [discriminate |]. destruct (owner s) eqn:O; [discriminate |]. injection E as <-. split; cbn; auto; try discriminate; try tauto.
      intros t th Et Ht. now destruct (I2 t th Et Ht).
    - injection E as <-. assert (O : owner s = Some 0) by tauto. destruct (queue s) as [| m q] eqn:Q; [destruct (waits s) eqn:W |]; cbn; split; cbn; auto; try discriminate; try tauto; try (intros t th Et Ht; destruct (I2 t th Et Ht); congruence); try (rewrite Q; auto; left; discriminate).
    - assert (O : owner s = Some 0) by tauto. destruct (queue s) as [| m q] eqn:Q; injection E as <-; split; cbn; auto; try discriminate; try tauto;
        try (intros t th Et Ht; destruct (I2 t th Et Ht); congruence); try (split; [discriminate | tauto]).
      + now rewrite returned_snoc, app_nil_r.
      + rewrite I5, map_app, <- app_assoc. reflexivity.
      + now rewrite returned_snoc, filter_app, map_app, I6.
    - injection E as <-. assert (O : owner s = Some 0) by tauto. split; cbn; auto; try discriminate; try tauto; try (intros t th Et Ht; destruct (I2 t th Et Ht); congruence); try (split; [discriminate | tauto]).
    - discriminate.
    - destruct (owner s) eqn:O; [discriminate |]. injection E as <-. split; cbn; auto; try discriminate; try tauto; intros t th Et Ht; destruct (I2 t th Et Ht); congruence.
  Qed.
  Lemma spurious_inv s s' : inv s -> exec max Spurious s = Some s' -> inv s'.
  Proof.
    intros [I1 I2 I3 I4 I5 I6 I7 I8 I9] E. cbn in E. destruct (cp s) eqn:C; try discriminate. injection E as <-. split; cbn; auto; try discriminate; tauto.
  Qed.
  Lemma woken_holds p : holds (woken p) <-> holds p.
  Proof. destruct p; cbn; tauto. Qed.
  Lemma woken_awake p : woken p <> CSleep.
  Proof. destruct p; discriminate. Qed.
  Lemma woken_block p : (woken p = CBlock -> p = CBlock) /\ (woken p = CTake -> p = CTake).
  Proof. destruct p; split; cbn; congruence. Qed.
  Lemma other_inv t s s' : inv s -> other max t s = Some s' -> inv s'.
  Proof.
    intros [I1 I2 I3 I4 I5 I6 I7 I8 I9] E. unfold other in E. destruct (nth_error (threads s) t) as [th |] eqn:T; [| discriminate].
    assert (Lt : t < length (threads s)) by (eapply nth_error_Some_lt; eauto).
    assert (U : forall th' t', nth_error (upd (threads s) t th') t' = if t' =? t then Some th' else nth_error (threads s) t').
    { intros th' t'. destruct (Nat.eqb_spec t' t) as [-> | N]; [now apply nth_error_upd_eq | now apply nth_error_upd_neq; auto]. }
    destruct (todo th) as [| o r] eqn:D; [discriminate |]. destruct (tp th) eqn:P.
    - assert (K : (o = Cancel /\ s' = St (queue s) false (owner s) (cp s) (calls s) (upd (threads s) t (Th (o :: r) TNotify)) (hist s) (gone s) (rets s)) \/
        (o <> Cancel /\ owner s = None /\ s' = St (queue s) (waits s) (Some (S t)) (cp s) (calls s) (upd (threads s) t (Th (o :: r) THold)) (hist s) (gone s) (rets s))).
      { destruct o; [| left; split; auto; congruence |]; (destruct (owner s) eqn:O; [discriminate |]; right; split; [discriminate | split; auto; congruence]). }
      clear E. destruct K as [[-> ->] | (No & O & ->)]; split; cbn; auto.
      + intros t' th' E H. rewrite U in E. destruct (t' =? t); [injection E as <-; discriminate | eauto].
      + intros t' O. destruct (I3 t' O) as (th' & Et & Ht). exists th'. rewrite U. destruct (Nat.eqb_spec t' t) as [-> | N]; [congruence | auto].
      + intros t' th' E H. rewrite U in E. destruct (t' =? t); [injection E as <-; exists Cancel, r; split; [reflexivity | discriminate] | eauto].
      + intros C Q. exists t, (Th (Cancel :: r) TNotify). rewrite U, Nat.eqb_refl. auto.
      + rewrite O in I1. split; [discriminate |]. intros H. apply I1 in H. discriminate.
      + intros t' th' E H. rewrite U in E. destruct (Nat.eqb_spec t' t) as [-> | N]; [injection E as <-; split; auto; exists o, r; auto | destruct (I2 t' th' E H); congruence].
      + intros t' E. injection E as <-. exists (Th (o :: r) THold). rewrite U, Nat.eqb_refl. auto.
      + intros t' th' E H. rewrite U in E. destruct (t' =? t); [injection E as <-; discriminate | eauto].
      + intros C Q. destruct (I9 C Q) as (t' & th' & Et & Ht). exists t', th'. rewrite U. destruct (Nat.eqb_spec t' t) as [-> | N]; [congruence | auto].
    - destruct (I2 t th T P) as (O & o' & r' & Eo & No). rewrite O in I1. assert (C : ~ holds (cp s)) by (rewrite <- I1; discriminate).
      assert (H1 : None = Some 0 <-> holds (cp s)) by (split; [discriminate | tauto]).
      assert (H2 : forall th2, tp th2 <> THold -> forall t0 th0, nth_error (upd (threads s) t th2) t0 = Some th0 -> tp th0 = THold -> None = Some (S t0) /\ exists o0 r0, todo th0 = o0 :: r0 /\ o0 <> Cancel).
      { intros th2 N2 t0 th0 E0 H0. rewrite U in E0. destruct (Nat.eqb_spec t0 t) as [-> | N]; [injection E0 as <-; tauto |]. destruct (I2 t0 th0 E0 H0). congruence. }
      assert (H9 : forall th2, forall t0 th0, nth_error (upd (threads s) t th2) t0 = Some th0 -> tp th0 = TNotify -> (t0 <> t /\ nth_error (threads s) t0 = Some th0) \/ th0 = th2).
      { intros th2 t0 th0 E0 H0. rewrite U in E0. destruct (Nat.eqb_spec t0 t) as [-> | N]; [right; congruence | auto]. }
      assert (HS : forall th2, cp s = CSleep -> queue s <> [] -> exists t0 th0, nth_error (upd (threads s) t th2) t0 = Some th0 /\ tp th0 = TNotify).
      { intros th2 C2 Q2. destruct (I9 C2 Q2) as (t' & th' & Et & Ht). exists t', th'. rewrite U. destruct (Nat.eqb_spec t' t) as [-> | N]; [congruence | auto]. }
      destruct o as [m | |]; [| congruence |].
      + destruct (max <=? length (queue s)); injection E as <-; split; cbn; auto; try discriminate.
        * apply (H2 (Th r TRun)). discriminate.
        * intros t0 th0 E0 H0. destruct (H9 _ _ _ E0 H0) as [[_ E1] | ->]; [eauto | discriminate].
        * rewrite accepted_snoc, app_nil_r. auto.
        * apply (H2 (Th (Push m :: r) TNotify)). discriminate.
        * intros t0 th0 E0 H0. destruct (H9 _ _ _ E0 H0) as [[_ E1] | ->]; [eauto |]. exists (Push m), r. split; auto. discriminate.
        * rewrite accepted_snoc, I5, <- app_assoc. auto.
        * intros C2. rewrite C2 in C. cbn in C. tauto.
        * intros C2. rewrite C2 in C. cbn in C. tauto.
        * intros _ _. exists t, (Th (Push m :: r) TNotify). rewrite U, Nat.eqb_refl. auto.
      + injection E as <-; split; cbn; auto; try discriminate.
        * apply (H2 (Th r TRun)). discriminate.
        * intros t0 th0 E0 H0. destruct (H9 _ _ _ E0 H0) as [[_ E1] | ->]; [eauto | discriminate].
        * rewrite I5, map_app, map_map, map_id, app_nil_r. auto.
        * rewrite filter_app, map_app. now rewrite none_popped, app_nil_r.
        * intros C2. rewrite C2 in C. cbn in C. tauto.
    - assert (s' = St (queue s) (waits s) (owner s) (woken (cp s)) (calls s) (upd (threads s) t (Th r TRun)) (hist s) (gone s) (rets s)) as -> by (destruct o; congruence).
      destruct (woken_block (cp s)) as [W1 W2]. split; cbn; auto.
      + rewrite woken_holds. auto.
      + intros t0 th0 E0 H0. rewrite U in E0. destruct (t0 =? t); [injection E0 as <-; discriminate | eauto].
      + intros t0 O. destruct (I3 t0 O) as (th' & Et & Ht). exists th'. rewrite U. destruct (Nat.eqb_spec t0 t) as [-> | N]; [congruence | auto].
      + intros t0 th0 E0 H0. rewrite U in E0. destruct (t0 =? t); [injection E0 as <-; discriminate | eauto].
      + intros C. now apply woken_awake in C.
  Qed.
  Lemma exec_inv l s s' : inv s -> exec max l s = Some s' -> inv s'.
  Proof. destruct l; [apply consumer_inv | apply other_inv | apply spurious_inv]. Qed.
  Lemma run_inv ls : forall s s', inv s -> run max ls s = Some s' -> inv s'.
  Proof.
    induction ls as [| l ls IH]; intros s s' I E; cbn in E; [congruence |]. destruct (exec max l s) eqn:X; [| discriminate]. eapply IH; [| exact E]. eapply exec_inv; eauto.
  Qed.

  (** ** The order of the messages of each thread *)
  Definition ordered (ps : list (list (op M))) (s : state M) : Prop :=
    length (threads s) = length ps /\ forall t p, nth_error ps t = Some p -> exists th, nth_error (threads s) t = Some th /\ pushes p = pushed_by t (hist s) ++ left th.
  Lemma pushed_by_snoc t h t' (m : M) b : pushed_by t (h ++ [(t', m, b)]) = pushed_by t h ++ (if t' =? t then [m] else []).
  Proof. unfold pushed_by. rewrite filter_app, map_app. cbn. now destruct (t' =? t). Qed.
  Local Opaque pushed_by.
  Lemma initial_ordered k ps : ordered ps (initial k ps).
  Proof. split; cbn; [apply map_length |]. intros t p E. exists (Th p TRun). rewrite nth_error_map, E. auto. Qed.
  Lemma exec_ordered ps l s s' : inv s -> ordered ps s -> exec max l s = Some s' -> ordered ps s'.
  Proof.
    intros I [L A] E. assert (SAME : threads s' = threads s -> hist s' = hist s -> ordered ps s') by (intros E1 E2; unfold ordered; now rewrite E1, E2).
    destruct l as [| t |]; cbn in E.
    - unfold consumer in E. destruct (cp s); [destruct (calls s); [discriminate |]; destruct (owner s); [discriminate |] | | destruct (queue s) | | discriminate | destruct (owner s); [discriminate |]]; injection E as <-; now apply SAME.
    - unfold other in E. destruct (nth_error (threads s) t) as [th |] eqn:T; [| discriminate]. assert (Lt : t < length (threads s)) by (eapply nth_error_Some_lt; eauto).
      assert (G : forall th' h', threads s' = upd (threads s) t th' -> hist s' = h' -> (forall t', t' <> t -> pushed_by t' h' = pushed_by t' (hist s)) ->
        pushed_by t h' ++ left th' = pushed_by t (hist s) ++ left th -> ordered ps s').
      { intros th' h' E1 E2 G1 G2. unfold ordered. rewrite E1, E2, length_upd. split; auto. intros t' p Ep. destruct (A t' p Ep) as (th0 & Et & EQ). destruct (Nat.eq_dec t' t) as [-> | N].
        - exists th'. rewrite nth_error_upd_eq by auto. split; auto. rewrite G2, EQ. congruence.
        - exists th0. rewrite nth_error_upd_neq by auto. split; auto. now rewrite G1. }
      destruct (todo th) as [| o r] eqn:D; [discriminate |]. destruct (tp th) eqn:P.
      + assert (K : hist s' = hist s /\ exists p, (p = TNotify -> o = Cancel) /\ threads s' = upd (threads s) t (Th (o :: r) p)).
        { destruct o; [destruct (owner s); [discriminate |] | | destruct (owner s); [discriminate |]]; injection E as <-; cbn; split; auto; [exists THold | exists TNotify | exists THold]; split; auto; discriminate. }
        destruct K as (K1 & p & K2 & K3). apply (G _ _ K3 K1); auto. f_equal. unfold left. rewrite P, D. cbn [tp todo tl]. destruct p; auto. now rewrite (K2 eq_refl).
      + destruct (i_hold s I t th T P) as (_ & o' & r' & Eo & No). destruct o as [m | |]; [| congruence |].
        * destruct (max <=? length (queue s)); injection E as <-; (eapply G; [reflexivity | reflexivity | |]; cbn [hist];
            [intros t' N; rewrite pushed_by_snoc; destruct (Nat.eqb_spec t t'); [congruence | apply app_nil_r] | rewrite pushed_by_snoc, Nat.eqb_refl, <- app_assoc; f_equal; unfold left; rewrite P, D; reflexivity]).
        * injection E as <-. eapply G; [reflexivity | reflexivity | |]; cbn [hist]; auto. f_equal. unfold left. now rewrite P, D.
      + assert (s' = St (queue s) (waits s) (owner s) (woken (cp s)) (calls s) (upd (threads s) t (Th r TRun)) (hist s) (gone s) (rets s)) as -> by (destruct o; congruence).
        eapply G; [reflexivity | reflexivity | |]; auto. cbn [hist]. f_equal. unfold left. now rewrite P, D.
    - destruct (cp s); try discriminate. injection E as <-. now apply SAME.
  Qed.
  Lemma run_ordered ps ls : forall s s', inv s -> ordered ps s -> run max ls s = Some s' -> ordered ps s'.
  Proof.
    induction ls as [| l ls IH]; intros s s' I O E; cbn in E; [congruence |]. destruct (exec max l s) eqn:X; [| discriminate]. eapply IH; [eapply exec_inv; eauto | eapply exec_ordered; eauto | exact E].
  Qed.

  (** ** Messages are dropped by a full queue only *)
  Definition drops_full (h : list (nat * M * bool)) : Prop := forall h1 t m h2, h = h1 ++ (t, m, false) :: h2 -> max <= length (accepted h1).
  Lemma drops_snoc h t m b : drops_full h -> (b = false -> max <= length (accepted h)) -> drops_full (h ++ [(t, m, b)]).
  Proof.
    intros D H h1 t1 m1 h2 E. destruct h2 as [| x h2 _] using rev_ind.
    - apply app_inj_tail in E as [-> E]. injection E as _ _ ->. auto.
    - rewrite app_comm_cons, app_assoc in E. apply app_inj_tail in E as [-> _]. eapply D; eauto.
  Qed.
  Lemma exec_drops l s s' : inv s -> drops_full (hist s) -> exec max l s = Some s' -> drops_full (hist s').
  Proof.
    intros I D E. destruct l as [| t |]; cbn in E.
    - unfold consumer in E. destruct (cp s); [destruct (calls s); [discriminate |]; destruct (owner s); [discriminate |] | | destruct (queue s) | | discriminate | destruct (owner s); [discriminate |]]; injection E as <-; auto.
    - unfold other in E. destruct (nth_error (threads s) t) as [th |] eqn:T; [| discriminate]. destruct (todo th) as [| o r]; [discriminate |]. destruct (tp th), o; try discriminate; try (destruct (owner s); [discriminate |]); try (injection E as <-; exact D).
      pose proof (i_acc s I) as A. destruct (Nat.leb_spec max (length (queue s))) as [Le | Le]; injection E as <-; apply drops_snoc; auto; [| discriminate]. intros _. rewrite A, app_length. lia.
    - destruct (cp s); try discriminate. injection E as <-. auto.
  Qed.
  Lemma run_drops ls : forall s s', inv s -> drops_full (hist s) -> run max ls s = Some s' -> drops_full (hist s').
  Proof.
    induction ls as [| l ls IH]; intros s s' I O E; cbn in E; [injection E as <-; exact O |]. destruct (exec max l s) eqn:X; [| discriminate]. eapply IH; [eapply exec_inv; eauto | eapply exec_drops; eauto | exact E].
  Qed.
End Proofs.
