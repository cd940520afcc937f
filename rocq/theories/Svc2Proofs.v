(** The logging service: it can always be stopped, and what it has handled then. *)
From Verif Require Import Base SvcModel SvcSpec SvcProofs.

Section Proofs.
  Context {M : Type} (bsize : nat).
  Implicit Types s : service M.

  Lemma turns_app ws1 : forall s s1 ws2, turns bsize ws1 s = Some s1 -> turns bsize (ws1 ++ ws2) s = turns bsize ws2 s1.
  Proof. induction ws1 as [| w ws IH]; intros s s1 ws2 E; cbn in *; [congruence |]. destruct (turn bsize w s); [eauto | discriminate]. Qed.
  Lemma later_trans s1 s2 s3 : later bsize s1 s2 -> later bsize s2 s3 -> later bsize s1 s3.
  Proof. intros (a & A) (b & B). exists (a ++ b). now rewrite (turns_app _ _ _ _ A). Qed.
  Lemma later_refl s : later bsize s s.
  Proof. exists []. reflexivity. Qed.
  Lemma later_turn w s1 s2 s3 : turn bsize w s1 = Some s2 -> later bsize s2 s3 -> later bsize s1 s3.
  Proof. intros E (a & A). exists (w :: a). cbn. now rewrite E. Qed.
  Lemma later_sinv s s' : sinv bsize s -> later bsize s s' -> sinv bsize s'.
  Proof. intros V (ws & E). eapply turns_sinv; eauto. Qed.

  (** ** The handler ends *)
  Definition rank (p : hpc) : nat := match p with HDone => 0 | HOuter2 => 1 | HOuter => 2 | HSend => 3 | HPop => 4 | HWake => 5 | HRecv2 => 5 | HRecv => 6 | HInner => 7 | _ => 9 end.
  Definition rest s : nat := 20 * length (sq s) + match sq s with
    | [] => rank (hp s)
    | _ => match hp s with HDone | HOuter2 => 0 | HPop => 1 | HWake => 2 | HRecv => 2 | HInner => if length (batch s) <? bsize then 3 else 6 | HOuter => 4 | HSend => 5 | _ => 6 end
    end.
  Definition awake s : Prop := hp s <> HBlock /\ hp s <> HSleep /\ (swait s = false \/ sq s = [] /\ (hp s = HSend \/ hp s = HOuter \/ hp s = HOuter2)).
  Lemma handler_ends : 1 <= bsize -> forall n s, rest s <= n -> shut s = true -> awake s -> (hp s = HOuter -> batch s = []) -> exists s', later bsize s s' /\ hp s' = HDone /\ dp s' = dp s /\ fp s' = fp s.
  Proof.
    intros Hb. induction n as [n IH] using lt_wf_ind. intros s Hn Hs (A1 & A2 & A3) Hbt.
    assert (hp s = HDone \/ hp s = HOuter2 \/ hp s <> HDone /\ hp s <> HOuter2) as [H | [H | [N1 N2]]] by (destruct (hp s); auto; right; right; split; discriminate).
    { exists s. split; auto using later_refl. }
    { exists (hset s HDone). split; [exists [Handler false]; cbn; unfold handler; now rewrite H, Hs |]. auto. }
    assert (exists s1, turn bsize (Handler false) s = Some s1 /\ rest s1 < rest s /\ shut s1 = true /\ awake s1 /\ (hp s1 = HOuter -> batch s1 = []) /\ dp s1 = dp s /\ fp s1 = fp s) as (s1 & E & R & B1 & B2 & B3 & B4 & B5);
      [| destruct (IH (rest s1) ltac:(lia) s1 ltac:(lia) B1 B2 B3) as (s2 & L & D & D1 & D2); exists s2; split; [eapply later_turn; eauto |]; split; auto; split; congruence].
    destruct (hp s) eqn:H; try congruence.
    - cbn [turn]. unfold handler. rewrite H. eexists. split; [reflexivity |]. unfold rest, awake. cbn [hset sq hp batch shut swait dp fp]. rewrite H. destruct (sq s) as [| m q]; cbn [rank length].
      + repeat split; auto; try discriminate; try lia.
      + rewrite (Hbt eq_refl). cbn [length]. destruct (Nat.ltb_spec 0 bsize); [| lia]. repeat split; auto; try discriminate; try lia. destruct A3 as [-> | [A3 _]]; [auto | discriminate].
    - destruct A3 as [A3 | (_ & [A3 | [A3 | A3]])]; try discriminate. cbn [turn]. unfold handler. rewrite H. eexists. split; [reflexivity |]. unfold rest, awake. cbn [hset sq hp batch shut swait dp fp]. rewrite H, andb_true_r. destruct (length (batch s) <? bsize), (sq s) as [| m q]; cbn [rank length]; repeat split; auto; try discriminate; try lia.
    - destruct A3 as [A3 | (_ & [A3 | [A3 | A3]])]; try discriminate. cbn [turn]. unfold handler. rewrite H. eexists. split; [reflexivity |]. unfold rest, awake. cbn [hset sq hp batch shut swait dp fp]. rewrite H. destruct (sq s) as [| m q]; cbn [rank length]; repeat split; auto; try discriminate; try lia.
    - destruct A3 as [A3 | (_ & [A3 | [A3 | A3]])]; try discriminate. cbn [turn]. unfold handler. rewrite H, Hs. eexists. split; [reflexivity |]. unfold rest, awake. cbn [hset sq hp batch shut swait dp fp]. rewrite H. destruct (sq s) as [| m q]; cbn [rank length]; repeat split; auto; try discriminate; try lia.
    - destruct A3 as [A3 | (_ & [A3 | [A3 | A3]])]; try discriminate. cbn [turn]. unfold handler. rewrite H, A3. eexists. split; [reflexivity |]. unfold rest, awake. rewrite H. destruct (sq s) as [| m q]; cbn [sq hp batch shut swait dp fp rank length].
      + repeat split; auto; try discriminate; try lia.
      + repeat split; auto; try discriminate; try lia. destruct q; cbn [length]; [lia |]. destruct (length (batch s ++ [m]) <? bsize); lia.
    - destruct A3 as [A3 | (_ & [A3 | [A3 | A3]])]; try discriminate. cbn [turn]. unfold handler. rewrite H. eexists. split; [reflexivity |]. unfold rest, awake. cbn [hset sq hp batch shut swait dp fp]. rewrite H. destruct (sq s) as [| m q]; cbn [rank length]; repeat split; auto; try discriminate; try lia.
    - cbn [turn]. unfold handler. rewrite H. eexists. split; [reflexivity |]. unfold rest, awake. cbn [hset sq hp batch shut swait dp fp]. rewrite H. destruct (sq s) as [| m q]; cbn [rank length]; repeat split; auto; try discriminate; try lia.
      + destruct A3 as [A3 | A3]; auto. right. intuition.
  Qed.
  (** the flusher wakes the handler, whatever it was doing *)
  Lemma flusher_wakes s : fp s <> FOff -> exists s', later bsize s s' /\ swait s' = false /\ hp s' <> HBlock /\ hp s' <> HSleep /\ shut s' = shut s /\ dp s' = dp s /\ fp s' = FIdle /\ (hp s' = HOuter -> hp s = HOuter) /\ batch s' = batch s.
  Proof.
    intros F.
    assert (G : forall s0, fp s0 = FNotify -> swait s0 = false -> exists s', later bsize s0 s' /\ swait s' = false /\ hp s' <> HBlock /\ hp s' <> HSleep /\ shut s' = shut s0 /\ dp s' = dp s0 /\ fp s' = FIdle /\ (hp s' = HOuter -> hp s0 = HOuter) /\ batch s' = batch s0).
    { intros s0 F0 W0. destruct (hp s0) eqn:H0.
      all: try (eexists; split; [exists [Flusher]; cbn; unfold flusher; rewrite F0; reflexivity |]; cbn; rewrite H0; cbn; repeat split; auto; discriminate).
      eexists. split; [exists [Handler false; Flusher]; cbn; unfold handler; rewrite H0; cbn; unfold flusher; cbn; rewrite F0; reflexivity |]. cbn. repeat split; auto; discriminate. }
    assert (G2 : forall s0, fp s0 = FIdle -> exists s', later bsize s0 s' /\ swait s' = false /\ hp s' <> HBlock /\ hp s' <> HSleep /\ shut s' = shut s0 /\ dp s' = dp s0 /\ fp s' = FIdle /\ (hp s' = HOuter -> hp s0 = HOuter) /\ batch s' = batch s0).
    { intros s0 F0. destruct (G (Sv (sq s0) false (shut s0) (hp s0) (batch s0) (handled s0) (prods s0) (dp s0) FNotify (log_of s0)) eq_refl eq_refl) as (s' & L & H). exists s'. split; [| exact H]. eapply later_turn; [| exact L]. instantiate (1 := Flusher). cbn. unfold flusher. now rewrite F0. }
    destruct (fp s) eqn:Fs; [auto | | congruence].
    destruct (G2 (Sv (sq s) (swait s) (shut s) (wakes (hp s)) (batch s) (handled s) (prods s) (dp s) FIdle (log_of s)) eq_refl) as (s' & L & H). exists s'. split; [eapply later_turn; [| exact L]; instantiate (1 := Flusher); cbn; unfold flusher; now rewrite Fs |].
    cbn in H. destruct H as (H1 & H2 & H3 & H4 & H5 & H6 & H7 & H8). repeat split; auto. intros A. apply H7 in A. apply wakes_same in A; auto. discriminate.
  Qed.
  Lemma disable_proceeds s : sinv bsize s -> exists s', later bsize s s' /\ (dp s' = DEnd \/ dp s' = DJoin \/ dp s' = DCancel).
  Proof.
    assert (K : forall n s, match dp s with DIdle => 5 | DTest => 4 | DShut => 3 | DWake => 2 | DNotify => 1 | _ => 0 end <= n -> exists s', later bsize s s' /\ (dp s' = DEnd \/ dp s' = DJoin \/ dp s' = DCancel)).
    { induction n as [| n IH]; intros s0 Hn; destruct (dp s0) eqn:D; try lia; try (exists s0; split; [apply later_refl | auto; fail]);
        match goal with |- _ => destruct (turn bsize Disabler s0) as [s1 |] eqn:T; [| cbn in T; unfold disabler in T; rewrite D in T; discriminate] end;
        destruct (IH s1) as (s' & L & H); try (exists s'; split; [eapply later_turn; eauto | exact H]); cbn in T; unfold disabler in T; rewrite D in T; injection T as <-; cbn; try destruct (shut s0); lia. }
    intros _. eapply K. apply le_n.
  Qed.
  Lemma stops_ok ms s : 1 <= bsize -> reaches bsize ms s -> exists s', later bsize s s' /\ dp s' = DEnd.
  Proof.
    intros Hb R. apply reaches_sinv in R. destruct (disable_proceeds s R) as (s1 & L1 & D1). assert (V1 := later_sinv _ _ R L1).
    assert (FIN : forall s2, sinv bsize s2 -> dp s2 = DCancel -> exists s', later bsize s2 s' /\ dp s' = DEnd).
    { intros s2 V2 D2. destruct (fp s2) eqn:F.
      - eexists. split; [exists [Disabler]; cbn; unfold disabler; rewrite D2, F; reflexivity | reflexivity].
      - eexists. split; [exists [Flusher; Disabler]; cbn; unfold flusher; rewrite F; cbn; unfold disabler; cbn; rewrite D2; reflexivity | reflexivity].
      - apply (v_off _ _ V2) in F. congruence. }
    destruct D1 as [D1 | [D1 | D1]]; [eauto | |].
    - assert (S1 : shut s1 = true) by (apply (v_shut _ _ V1); rewrite D1; exact I). assert (F1 : fp s1 <> FOff) by (intros F; apply (v_off _ _ V1) in F; congruence).
      destruct (flusher_wakes s1 F1) as (s2 & L2 & W2 & B2 & P2 & S2 & D2 & F2 & O2 & Bt2). assert (V2 := later_sinv _ _ V1 L2).
      destruct (handler_ends Hb (rest s2) s2 ltac:(lia) ltac:(congruence)) as (s3 & L3 & H3 & D3 & F3).
      { repeat split; auto. } { intros H. apply V2. auto. }
      assert (V3 := later_sinv _ _ V2 L3).
      destruct (FIN (dset s3 DCancel)) as (s4 & L4 & D4); [| reflexivity |].
      { apply (turn_sinv bsize Disabler s3); auto. cbn. unfold disabler. rewrite D3, D2, D1, H3. reflexivity. }
      exists s4. split; auto. eapply later_trans; [exact L1 |]. eapply later_trans; [exact L2 |]. eapply later_trans; [exact L3 |]. eapply later_turn; [| exact L4]. instantiate (1 := Disabler). cbn. unfold disabler. now rewrite D3, D2, D1, H3.
    - destruct (FIN s1 V1 D1) as (s' & L & D). exists s'. split; auto. eapply later_trans; eauto.
  Qed.

  (** ** What was handled when the handler has ended *)
  Lemma turn_log w s s' : turn bsize w s = Some s' -> exists t, log_of s' = log_of s ++ t.
  Proof.
    intros E. destruct w as [e | i | |]; cbn in E.
    - unfold handler in E. destruct (hp s); try discriminate; try (injection E as <-; exists []; cbn; now rewrite app_nil_r). destruct (sq s); [destruct (swait s) |]; injection E as <-; exists []; cbn; now rewrite app_nil_r.
    - unfold producer in E. destruct (nth_error (prods s) i) as [[m []] |]; try discriminate; [| destruct (hp s); try discriminate |]; injection E as <-; cbn; eauto; exists []; now rewrite app_nil_r.
    - unfold disabler in E. destruct (dp s); try discriminate; try (destruct (hp s); try discriminate); try (destruct (fp s); try discriminate); injection E as <-; exists []; cbn; now rewrite app_nil_r.
    - unfold flusher in E. destruct (fp s); try discriminate; injection E as <-; exists []; cbn; now rewrite app_nil_r.
  Qed.
  Definition covered (l0 : list M) s : Prop := (exists t, log_of s = l0 ++ t) /\ (hp s = HOuter2 \/ hp s = HDone -> exists t, handled s = l0 ++ t).
  Lemma turn_covered l0 w s s' : sinv bsize s -> covered l0 s -> turn bsize w s = Some s' -> covered l0 s'.
  Proof.
    intros V [[t C0] C] E. pose proof (turn_log _ _ _ E) as (t' & Lg). split; [exists (t ++ t'); rewrite Lg, C0; now rewrite app_assoc |].
    assert (KEEP : handled s' = handled s -> (hp s' = HOuter2 \/ hp s' = HDone -> hp s = HOuter2 \/ hp s = HDone) -> hp s' = HOuter2 \/ hp s' = HDone -> exists t0, handled s' = l0 ++ t0) by (intros -> A B; auto).
    destruct w as [e | i | |]; cbn in E.
    - unfold handler in E. destruct (hp s) eqn:H; try discriminate.
      + injection E as <-. cbn. intros Hh. destruct (sq s) eqn:Q; [| destruct Hh; discriminate]. pose proof (v_log _ _ V) as L. rewrite (v_batch _ _ V), Q in L by auto. rewrite app_nil_r in L. exists t. congruence.
      + injection E as <-. apply KEEP; auto.
      + injection E as <-. cbn [hset hp]. destruct ((length (batch s) <? bsize) && negb e); intros [|]; discriminate.
      + injection E as <-. cbn. destruct (sq s); intros [|]; discriminate.
      + injection E as <-. cbn. destruct (shut s); intros [|]; discriminate.
      + injection E as <-. cbn. destruct (sq s); [destruct (swait s) |]; cbn; intros [|]; discriminate.
      + injection E as <-. cbn. intros [|]; discriminate.
      + injection E as <-. cbn. intros [|]; discriminate.
      + injection E as <-. cbn. intros [|]; discriminate.
    - unfold producer in E. destruct (nth_error (prods s) i) as [[m []] |]; try discriminate; [| destruct (hp s) eqn:H; try discriminate |]; injection E as <-; apply KEEP; cbn; auto; intros [A | A]; apply wakes_same in A; auto; discriminate.
    - unfold disabler in E. destruct (dp s) eqn:D; try discriminate; try (destruct (hp s) eqn:H; try discriminate); try (destruct (fp s); try discriminate); injection E as <-; apply KEEP; cbn; rewrite ?H; auto; intros [A | A]; try apply wakes_same in A; auto; discriminate.
    - unfold flusher in E. destruct (fp s); try discriminate; injection E as <-; apply KEEP; cbn; auto; intros [A | A]; apply wakes_same in A; auto; discriminate.
  Qed.
  Lemma handled_ok ms s s' : reaches bsize ms s -> hp s <> HOuter2 -> hp s <> HDone -> later bsize s s' -> hp s' = HDone -> exists t, handled s' = log_of s ++ t.
  Proof.
    intros R H1 H2 (ws & E) H. apply reaches_sinv in R.
    assert (C : covered (log_of s) s). { split; [exists []; now rewrite app_nil_r |]. intros [|]; congruence. }
    revert C E. generalize (log_of s). clear H1 H2. intros l0. revert s R. induction ws as [| w ws IH]; intros s0 V C E; cbn in E. { injection E as ->. apply C. auto. }
    destruct (turn bsize w s0) as [s1 |] eqn:T; [| discriminate]. eapply (IH s1); [eapply turn_sinv; eauto | eapply turn_covered; eauto | exact E].
  Qed.

  Lemma again_ok ms s : reaches bsize ms s -> dp s = DEnd -> sq s = [] -> hp (enable_again s) = HOuter /\ shut (enable_again s) = false.
  Proof.
    intros R D Q. apply reaches_sinv in R. unfold enable_again, active. rewrite Q. assert (shut s = true) as -> by (apply (v_shut _ _ R); rewrite D; exact I). auto.
  Qed.
  (** with a batch size of zero a record in the queue keeps disable() from returning *)
  Lemma zero_batch ms s s' : bsize = 0 -> reaches bsize ms s -> sq s <> [] -> hp s <> HOuter2 -> hp s <> HDone -> later bsize s s' -> dp s' <> DEnd.
  Proof.
    intros B0 R Q H1 H2 (ws & E). apply reaches_sinv in R. revert s R Q H1 H2 E. induction ws as [| w ws IH]; intros s V Q H1 H2 E; cbn in E.
    { injection E as <-. intros D. apply H2. apply (v_done _ _ V). auto. }
    destruct (turn bsize w s) as [s1 |] eqn:T; [| discriminate]. assert (V1 := turn_sinv _ _ _ _ V T). apply (IH s1); auto; clear IH E.
    - destruct w as [e | i | |]; cbn in T.
      + unfold handler in T. pose proof (v_zero _ _ V B0) as Z0. destruct (hp s); try discriminate; try (injection T as <-; exact Q); repeat destruct Z0 as [Z0 | Z0]; discriminate.
      + unfold producer in T. destruct (nth_error (prods s) i) as [[m []] |]; try discriminate; [| destruct (hp s); try discriminate |]; injection T as <-; cbn; auto; intros A; now apply app_eq_nil in A.
      + unfold disabler in T. destruct (dp s); try discriminate; try (destruct (hp s); try discriminate); try (destruct (fp s); try discriminate); injection T as <-; exact Q.
      + unfold flusher in T. destruct (fp s); try discriminate; injection T as <-; exact Q.
    - destruct w as [e | i | |]; cbn in T.
      + unfold handler in T. pose proof (v_zero _ _ V B0) as Z0. destruct (hp s) eqn:H; try congruence; try (exfalso; repeat destruct Z0 as [Z0 | Z0]; discriminate); injection T as <-; cbn [hset hp]; try discriminate; [destruct (sq s); congruence | destruct ((length (batch s) <? bsize) && negb e); discriminate].
      + unfold producer in T. destruct (nth_error (prods s) i) as [[m []] |]; try discriminate; [| destruct (hp s) eqn:H; try discriminate |]; injection T as <-; cbn; auto; try congruence; intros A; apply wakes_same in A; auto; discriminate.
      + unfold disabler in T. destruct (dp s); try discriminate; try (destruct (hp s) eqn:H; try discriminate); try (destruct (fp s); try discriminate); injection T as <-; cbn; try congruence; auto; intros A; apply wakes_same in A; auto; discriminate.
      + unfold flusher in T. destruct (fp s); try discriminate; injection T as <-; cbn; auto; intros A; apply wakes_same in A; auto; discriminate.
    - destruct w as [e | i | |]; cbn in T.
      + unfold handler in T. pose proof (v_zero _ _ V B0) as Z0. destruct (hp s) eqn:H; try congruence; try (exfalso; repeat destruct Z0 as [Z0 | Z0]; discriminate); injection T as <-; cbn [hset hp]; try discriminate; [destruct (sq s); congruence | destruct ((length (batch s) <? bsize) && negb e); discriminate].
      + unfold producer in T. destruct (nth_error (prods s) i) as [[m []] |]; try discriminate; [| destruct (hp s) eqn:H; try discriminate |]; injection T as <-; cbn; auto; try congruence; intros A; apply wakes_same in A; auto; discriminate.
      + unfold disabler in T. destruct (dp s); try discriminate; try (destruct (hp s) eqn:H; try discriminate); try (destruct (fp s); try discriminate); injection T as <-; cbn; try congruence; auto; intros A; apply wakes_same in A; auto; discriminate.
      + unfold flusher in T. destruct (fp s); try discriminate; injection T as <-; cbn; auto; intros A; apply wakes_same in A; auto; discriminate.
  Qed.
End Proofs.
Lemma turns_step {M} b w ws (s s' : service M) r : turn b w s = Some s' -> turns b ws s' = r -> turns b (w :: ws) s = r.
Proof. intros E <-. cbn. now rewrite E. Qed.
