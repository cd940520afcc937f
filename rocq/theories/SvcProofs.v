(** The logging service. *)
From Verif Require Import Base SvcModel SvcSpec.

Section Proofs.
  Context {M : Type} (bsize : nat).
  Implicit Types s : service M.

  Definition late (p : dpc) : Prop := match p with DWake | DNotify | DJoin | DCancel | DEnd => True | _ => False end.
  Record sinv s : Prop := {
    v_log : handled s ++ batch s ++ sq s = log_of s;
    v_batch : hp s = HOuter \/ hp s = HOuter2 \/ hp s = HDone -> batch s = [];
    v_shut : shut s = true <-> late (dp s);
    v_done : dp s = DCancel \/ dp s = DEnd -> hp s = HDone;
    v_over : hp s = HDone -> shut s = true;
    v_off : fp s = FOff -> dp s = DEnd;
    v_zero : bsize = 0 -> hp s = HOuter \/ hp s = HOuter2 \/ hp s = HInner \/ hp s = HSend \/ hp s = HDone }.
  Lemma enabled_sinv ms : sinv (enabled ms).
  Proof. split; cbn; auto; try discriminate; try tauto; try (split; [discriminate | tauto]). intros [|]; discriminate. Qed.
  Lemma wakes_same p q : q <> HWake -> wakes p = q -> p = q.
  Proof. destruct p; cbn; congruence. Qed.
  Lemma turn_sinv w s s' : sinv s -> turn bsize w s = Some s' -> sinv s'.
  Proof.
    intros [V1 V2 V3 V4 V5 V6 V7] E. destruct w as [e | i | |]; cbn in E.
    - unfold handler in E. destruct (hp s) eqn:H.
      + injection E as <-. destruct (sq s) eqn:Q; (split; cbn; auto; try discriminate; try (rewrite Q; auto); try (intros D; specialize (V4 D); discriminate); try (intros [D | [D | D]]; try discriminate; auto; fail)).
      + injection E as <-. destruct (shut s) eqn:Hs; split; cbn; auto; try discriminate; try (rewrite Hs; auto); try (intros D; specialize (V4 D); discriminate); try (intros [D | [D | D]]; try discriminate; auto; fail).
      + injection E as <-. destruct ((length (batch s) <? bsize) && negb e) eqn:B; split; cbn; auto; try discriminate; try (intros D; specialize (V4 D); discriminate); try (intros [D | [D | D]]; try discriminate; auto; fail).
        intros Z0. rewrite Z0 in B. discriminate.
      + injection E as <-. destruct (sq s) eqn:Q; split; cbn; auto; try discriminate; try (rewrite Q; auto); try (intros D; specialize (V4 D); discriminate); try (intros [D | [D | D]]; try discriminate; auto; fail); intros Z0; specialize (V7 Z0); repeat destruct V7 as [V7 | V7]; discriminate.
      + injection E as <-. destruct (shut s) eqn:Hs; split; cbn; auto; try discriminate; try (rewrite Hs; auto); try (intros D; specialize (V4 D); discriminate); try (intros [D | [D | D]]; try discriminate; auto; fail).
        intros Z0; specialize (V7 Z0); repeat destruct V7 as [V7 | V7]; discriminate.
      + assert (NZ : bsize <> 0) by (intros Z0; specialize (V7 Z0); repeat destruct V7 as [V7 | V7]; discriminate). injection E as <-. destruct (sq s) as [| m q] eqn:Q; [destruct (swait s) |]; (split; cbn; auto; try discriminate; try (rewrite Q; auto); try (intros D; specialize (V4 D); discriminate); try (intros [D | [D | D]]; try discriminate; auto; fail); try tauto).
        rewrite <- V1, <- !app_assoc. reflexivity.
      + assert (NZ : bsize <> 0) by (intros Z0; specialize (V7 Z0); repeat destruct V7 as [V7 | V7]; discriminate). injection E as <-. split; cbn; auto; try discriminate; try (intros D; specialize (V4 D); discriminate); try (intros [D | [D | D]]; try discriminate; auto; fail); try tauto.
      + discriminate.
      + assert (NZ : bsize <> 0) by (intros Z0; specialize (V7 Z0); repeat destruct V7 as [V7 | V7]; discriminate). injection E as <-. split; cbn; auto; try discriminate; try (intros D; specialize (V4 D); discriminate); try (intros [D | [D | D]]; try discriminate; auto; fail); try tauto.
      + injection E as <-. split; cbn; auto; try discriminate; try (intros D; specialize (V4 D); discriminate). rewrite <- V1, <- app_assoc. reflexivity.
      + discriminate.
    - unfold producer in E. destruct (nth_error (prods s) i) as [[m []] |]; try discriminate.
      + injection E as <-. split; cbn; auto.
      + destruct (hp s) eqn:H; try discriminate; injection E as <-; (split; cbn; auto; rewrite <- V1, <- !app_assoc; reflexivity).
      + injection E as <-. split; cbn; auto.
        * intros [D | [D | D]]; apply wakes_same in D; try discriminate; auto.
        * intros D. specialize (V4 D). now rewrite V4.
        * intros D. apply wakes_same in D; try discriminate; auto.
        * intros Z0. specialize (V7 Z0). repeat destruct V7 as [-> | V7]; cbn; auto. rewrite V7. cbn. auto.
    - unfold disabler in E. destruct (dp s) eqn:D; cbn [late] in V3.
      + injection E as <-. split; cbn; auto; try (intros [|]; discriminate). intros X. specialize (V6 X). discriminate.
      + injection E as <-. assert (shut s = false) as Hs by (destruct (shut s); tauto). rewrite Hs. split; cbn; auto; try (rewrite Hs; auto; fail); try (intros [|]; discriminate). intros X. specialize (V6 X). discriminate.
      + injection E as <-. split; cbn; auto; try tauto; try (intros [|]; discriminate).
      + injection E as <-. split; cbn; auto; try (intros [|]; discriminate). intros X. specialize (V6 X). discriminate.
      + injection E as <-. split; cbn; auto; try (intros [|]; discriminate).
        * intros [A | [A | A]]; apply wakes_same in A; try discriminate; auto.
        * intros A. apply wakes_same in A; try discriminate; auto.
        * intros X. specialize (V6 X). discriminate.
        * intros Z0. specialize (V7 Z0). repeat destruct V7 as [-> | V7]; cbn; auto. rewrite V7. cbn. auto.
      + destruct (hp s) eqn:H; try discriminate. injection E as <-. split; cbn; rewrite ?H; auto. intros X. specialize (V6 X). discriminate.
      + destruct (fp s) eqn:F; try discriminate. injection E as <-. split; cbn; auto.
      + discriminate.
    - unfold flusher in E. destruct (fp s) eqn:F; try discriminate; injection E as <-.
      + split; cbn; auto. discriminate.
      + split; cbn; auto; try discriminate.
        * intros [A | [A | A]]; apply wakes_same in A; try discriminate; auto.
        * intros D. specialize (V4 D). now rewrite V4.
        * intros A. apply wakes_same in A; try discriminate; auto.
        * intros Z0. specialize (V7 Z0). repeat destruct V7 as [-> | V7]; cbn; auto. rewrite V7. cbn. auto.
  Qed.
  Lemma turns_sinv ws : forall s s', sinv s -> turns bsize ws s = Some s' -> sinv s'.
  Proof.
    induction ws as [| w ws IH]; intros s s' V E; cbn in E; [injection E as <-; exact V |]. destruct (turn bsize w s) eqn:T; [| discriminate]. eapply IH; [eapply turn_sinv; eauto | exact E].
  Qed.
  Lemma reaches_sinv ms s : reaches bsize ms s -> sinv s.
  Proof. intros (ws & E). eapply turns_sinv; eauto using enabled_sinv. Qed.
End Proofs.
