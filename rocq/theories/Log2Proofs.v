(** The queue of log records: runs end, and where they end. *)
From Verif Require Import Base LogModel LogSpec LogProofs.

Section Proofs.
  Context {M : Type} (max : nat).

  (** ** Every step but a wake up by nobody uses up work *)
  Definition cwork (p : cpc) : nat := match p with CIdle => 0 | CTake => 1 | CSleep => 0 | CBlock => 1 | CTest => 2 | CWake => 3 end.
  Definition twork (th : thread M) : nat := 6 * length (todo th) - match tp th with TRun => 0 | THold => 1 | TNotify => 2 end.
  Definition work (s : state M) : nat := 3 * calls s + cwork (cp s) + list_sum (map twork (threads s)).
  Lemma sum_upd (l : list (thread M)) t th th' : nth_error l t = Some th -> list_sum (map twork (upd l t th')) + twork th = list_sum (map twork l) + twork th'.
  Proof.
    revert t. induction l as [| x l IH]; intros [| t] E; cbn in E; try discriminate.
    - injection E as ->. cbn [upd map]. change (list_sum (?a :: ?b)) with (a + list_sum b). lia.
    - specialize (IH t E). cbn [upd map]. change (list_sum (?a :: ?b)) with (a + list_sum b). lia.
  Qed.
  Lemma cwork_woken p : cwork (woken p) <= cwork p + 3.
  Proof. destruct p; cbn; lia. Qed.
  Lemma exec_work l s s' : exec max l s = Some s' -> work s' + 1 <= work s + match l with Spurious => 4 | _ => 0 end.
  Proof.
    intros E. destruct l as [| t |]; cbn in E.
    - unfold consumer in E. unfold work. destruct (cp s) eqn:C.
      + destruct (calls s) eqn:K; [discriminate |]. destruct (owner s); [discriminate |]. injection E as <-. cbn [set_cp calls cp threads cwork]. lia.
      + injection E as <-. cbn [set_cp calls cp threads]. destruct (match queue s with [] => negb (waits s) | _ => true end); cbn [set_cp calls cp threads cwork]; lia.
      + destruct (queue s); injection E as <-; cbn [set_cp calls cp threads cwork]; lia.
      + injection E as <-. cbn [set_cp calls cp threads cwork]. lia.
      + discriminate.
      + destruct (owner s); [discriminate |]. injection E as <-. cbn [set_cp calls cp threads cwork]. lia.
    - unfold other in E. destruct (nth_error (threads s) t) as [th |] eqn:T; [| discriminate]. pose proof (sum_upd _ _ _ (Th (tl (todo th)) TRun) T) as S0. pose proof (sum_upd _ _ _ (Th (todo th) THold) T) as S1. pose proof (sum_upd _ _ _ (Th (todo th) TNotify) T) as S2.
      pose proof (cwork_woken (cp s)) as W. unfold work. unfold twork in S0 at 2 4; unfold twork in S1 at 2 4; unfold twork in S2 at 2 4. destruct (todo th) as [| o r]; [discriminate |]. cbn [todo tp tl length] in *.
      destruct (tp th), o; try discriminate; try (destruct (owner s); [discriminate |]); try (destruct (max <=? length (queue s))); injection E as <-; cbn [calls cp threads]; lia.
    - destruct (cp s) eqn:C; try discriminate. injection E as <-. unfold work. rewrite C. cbn [set_cp calls cp threads cwork]. lia.
  Qed.
  Lemma run_work ls : forall s s', run max ls s = Some s' -> work s' + length ls <= work s + 4 * spurious ls.
  Proof.
    induction ls as [| l ls IH]; intros s s' E; cbn in E. { injection E as ->. cbn. lia. }
    destruct (exec max l s) as [s1 |] eqn:X; [| discriminate]. apply IH in E. apply exec_work in X. unfold spurious in *. cbn [length filter]. destruct l; cbn [length]; lia.
  Qed.
  Lemma initial_work k ps : work (initial k ps) = 3 * k + 6 * length (concat ps).
  Proof.
    unfold work. cbn [initial calls cp threads cwork]. rewrite map_map. cut (list_sum (map (fun x => twork (Th x TRun)) ps) = 6 * length (concat ps)); [lia |].
    induction ps as [| p ps IH]; auto. cbn [map concat]. rewrite app_length. change (list_sum (?a :: ?b)) with (a + list_sum b). rewrite IH. unfold twork. cbn [todo tp]. lia.
  Qed.

  (** ** The states without a step *)
  Lemma stuck_threads (s : state M) : inv s -> stuck max s -> all_done s /\ owner s = None.
  Proof.
    intros I K.
    assert (O : owner s = None).
    { destruct (owner s) as [[| t] |] eqn:O; auto; exfalso.
      - apply (i_cons s I) in O. specialize (K Consumer ltac:(discriminate)). cbn in K. unfold consumer in K. destruct (cp s); cbn in O; try tauto; discriminate.
      - destruct (i_own s I t O) as (th & T & P). destruct (i_hold s I t th T P) as (_ & o & r & D & N). specialize (K (Thread t) ltac:(discriminate)). cbn in K. unfold other in K. rewrite T, D, P in K. destruct o; try tauto; [destruct (max <=? length (queue s)) |]; discriminate. }
    split; auto. intros th H. apply In_nth_error in H as (t & T). destruct (todo th) as [| o r] eqn:D; auto. exfalso.
    specialize (K (Thread t) ltac:(discriminate)). cbn in K. unfold other in K. rewrite T, D in K. destruct (tp th) eqn:P; [rewrite O in K; destruct o; discriminate | | destruct o; discriminate].
    destruct (i_hold s I t th T P) as (O' & _). congruence.
  Qed.
  Lemma stuck_consumer (s : state M) : inv s -> stuck max s -> (cp s = CIdle /\ calls s = 0) \/ (cp s = CSleep /\ queue s = []).
  Proof.
    intros I K. destruct (stuck_threads s I K) as [D O]. specialize (K Consumer ltac:(discriminate)). cbn in K. unfold consumer in K. destruct (cp s) eqn:C; try discriminate.
    - rewrite O in K. destruct (calls s); [auto | discriminate].
    - right. split; auto. destruct (queue s) eqn:Q; auto. exfalso. destruct (i_sleep s I C ltac:(congruence)) as (t & th & T & P).
      destruct (i_note s I t th T P) as (o & r & E & _). rewrite (D th) in E; [discriminate | eapply nth_error_In; eauto].
    - rewrite O in K. discriminate.
  Qed.

  (** ** The calls of the consumer are counted *)
  Definition counted (k : nat) (s : state M) : Prop := length (rets s) + calls s + match cp s with CIdle => 0 | _ => 1 end = k.
  Lemma exec_counted k l s s' : counted k s -> exec max l s = Some s' -> counted k s'.
  Proof.
    unfold counted. intros H E. destruct l as [| t |]; cbn in E.
    - unfold consumer in E. destruct (cp s) eqn:C; [destruct (calls s) eqn:K; [discriminate |]; destruct (owner s); [discriminate |] | | destruct (queue s) | | discriminate | destruct (owner s); [discriminate |]]; injection E as <-; cbn [set_cp rets calls cp]; try rewrite app_length; cbn [length]; try lia.
      destruct (match queue s with [] => negb (waits s) | _ => true end); lia.
    - unfold other in E. destruct (nth_error (threads s) t) as [th |] eqn:T; [| discriminate]. destruct (todo th) as [| o r]; [discriminate |]. assert (W : match woken (cp s) with CIdle => 0 | _ => 1 end = match cp s with CIdle => 0 | _ => 1 end) by now destruct (cp s).
      destruct (tp th), o; try discriminate; try (destruct (owner s); [discriminate |]); try (destruct (max <=? length (queue s))); injection E as <-; cbn [calls cp rets]; lia.
    - destruct (cp s) eqn:C; try discriminate. injection E as <-. cbn. lia.
  Qed.
  Lemma run_counted k ls : forall s s', counted k s -> run max ls s = Some s' -> counted k s'.
  Proof.
    induction ls as [| l ls IH]; intros s s' O E; cbn in E; [injection E as <-; exact O |]. destruct (exec max l s) eqn:X; [| discriminate]. eapply IH; [eapply exec_counted; eauto | exact E].
  Qed.

  (** ** Cancelled waits, where no cancel_wait falls between test and sleep *)
  Record cinv (s : state M) : Prop := {
    c_block : cp s = CBlock -> waits s = true;
    c_sleep : cp s = CSleep -> waits s = false -> exists t th, nth_error (threads s) t = Some th /\ tp th = TNotify }.
  Lemma exec_cinv l s s' : inv s -> cinv s -> (forall t, l = Thread t -> cancels s t -> cp s <> CBlock) -> exec max l s = Some s' -> cinv s'.
  Proof.
    intros I [C1 C2] G E. destruct l as [| t |]; cbn in E.
    - unfold consumer in E. destruct (cp s) eqn:C.
      + destruct (calls s); [discriminate |]. destruct (owner s); [discriminate |]. injection E as <-. split; cbn; discriminate.
      + injection E as <-. destruct (queue s), (waits s) eqn:W; cbn; split; cbn; auto; discriminate.
      + destruct (queue s); injection E as <-; split; cbn; discriminate.
      + injection E as <-. split; cbn; [discriminate |]. rewrite (C1 eq_refl). discriminate.
      + discriminate.
      + destruct (owner s); [discriminate |]. injection E as <-. split; cbn; discriminate.
    - unfold other in E. destruct (nth_error (threads s) t) as [th |] eqn:T; [| discriminate].
      assert (Lt : t < length (threads s)) by (eapply nth_error_Some_lt; eauto). destruct th as [td p]. cbn [todo tp] in E. destruct td as [| o r]; [discriminate |].
      assert (KEEP : p <> TNotify -> forall th', cp s = CSleep -> waits s = false -> exists t0 th0, nth_error (upd (threads s) t th') t0 = Some th0 /\ tp th0 = TNotify).
      { intros N th' H1 H2. destruct (C2 H1 H2) as (t0 & th0 & E0 & P0). exists t0, th0. split; auto. rewrite nth_error_upd_neq; auto. intros ->. rewrite T in E0. injection E0 as <-. cbn in P0. auto. }
      destruct p.
      + destruct o; [destruct (owner s); [discriminate |] | | destruct (owner s); [discriminate |]]; injection E as <-; split; cbn; auto; try (apply KEEP; discriminate).
        * intros C. exfalso. apply (G t eq_refl); [| exact C]. exists r. exact T.
        * intros _ _. exists t. eexists. rewrite nth_error_upd_eq by auto. split; reflexivity.
      + destruct o; [destruct (max <=? length (queue s)) | discriminate |]; injection E as <-; split; cbn; auto; apply KEEP; discriminate.
      + assert (s' = St (queue s) (waits s) (owner s) (woken (cp s)) (calls s) (upd (threads s) t (Th r TRun)) (hist s) (gone s) (rets s)) as -> by (destruct o; congruence).
        split; cbn; [| intros C; now apply woken_awake in C]. intros C. apply C1. now apply woken_block in C.
    - destruct (cp s) eqn:C; try discriminate. injection E as <-. split; cbn; discriminate.
  Qed.
  Lemma run_cinv ls : forall s s', inv s -> cinv s -> calm max ls s -> run max ls s = Some s' -> cinv s'.
  Proof.
    induction ls as [| l ls IH]; intros s s' I O C E; cbn in E; [injection E as <-; exact O |]. destruct (exec max l s) eqn:X; [| discriminate]. destruct C as [C1 C2]. eapply IH; [eapply exec_inv; eauto | eapply exec_cinv; eauto | auto | exact E].
  Qed.
  Lemma initial_cinv k ps : cinv (initial k ps : state M).
  Proof. split; cbn; discriminate. Qed.
  Lemma stuck_waits s : inv s -> cinv s -> stuck max s -> cp s = CSleep -> waits s = true.
  Proof.
    intros I C K H. destruct (waits s) eqn:W; auto. exfalso. destruct (stuck_threads s I K) as [D _]. destruct (c_sleep s C H W) as (t & th & T & P). destruct (i_note s I t th T P) as (o & r & E & _). rewrite (D th) in E; [discriminate | eapply nth_error_In; eauto].
  Qed.

  (** from the write of cancel_wait until a pop_front returns nothing, wait_ stays false *)
  Lemma nothings_snoc (r : list (option M)) o : nothings (r ++ [o]) = nothings r + match o with None => 1 | Some _ => 0 end.
  Proof. unfold nothings. rewrite filter_app, app_length. destruct o; cbn; lia. Qed.
  Local Opaque nothings.
  Lemma exec_cancelled n l (s s' : state M) : waits s = false /\ nothings (rets s) = n \/ n < nothings (rets s) -> exec max l s = Some s' -> waits s' = false /\ nothings (rets s') = n \/ n < nothings (rets s').
  Proof.
    intros H E. destruct l as [| t |]; cbn in E.
    - unfold consumer in E. destruct (cp s) eqn:C; [destruct (calls s) eqn:K; [discriminate |]; destruct (owner s); [discriminate |] | | destruct (queue s) | | discriminate | destruct (owner s); [discriminate |]]; injection E as <-; cbn [set_cp rets waits]; auto; rewrite nothings_snoc; [right | rewrite Nat.add_0_r; auto]. destruct H as [[_ <-] | H]; lia.
    - unfold other in E. destruct (nth_error (threads s) t) as [th |] eqn:T; [| discriminate]. destruct (todo th) as [| o r]; [discriminate |].
      destruct (tp th), o; try discriminate; try (destruct (owner s); [discriminate |]); try (destruct (max <=? length (queue s))); injection E as <-; cbn [rets waits]; tauto.
    - destruct (cp s) eqn:C; try discriminate. injection E as <-. auto.
  Qed.
  Lemma run_cancelled n ls : forall (s s' : state M), waits s = false /\ nothings (rets s) = n \/ n < nothings (rets s) -> run max ls s = Some s' -> waits s' = false /\ nothings (rets s') = n \/ n < nothings (rets s').
  Proof.
    induction ls as [| l ls IH]; intros s s' O E; cbn in E; [injection E as <-; exact O |]. destruct (exec max l s) eqn:X; [| discriminate]. eapply IH; [eapply exec_cancelled; eauto | exact E].
  Qed.
End Proofs.
