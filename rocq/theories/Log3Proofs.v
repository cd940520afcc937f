(** The queue of log records: the theorems about whole runs. *)
From Verif Require Import Base LogModel LogSpec LogProofs Log2Proofs.

Section Proofs.
  Context {M : Type} (max : nat).

  (** ** Without clear() every message that left was popped *)
  Definition popped_only (s : state M) : Prop := (forall th, In th (threads s) -> ~ In Clear (todo th)) /\ forall e, In e (gone s) -> fst e = true.
  Lemma in_upd {A} (l : list A) t x y : In y (upd l t x) -> y = x \/ In y l.
  Proof. revert t. induction l as [| a l IH]; intros [| t] H; cbn in *; auto. - destruct H; auto. - destruct H as [-> | H]; auto. apply IH in H as [-> | H]; auto. Qed.
  Lemma exec_popped l s s' : popped_only s -> exec max l s = Some s' -> popped_only s'.
  Proof.
    intros [A B] E. destruct l as [| t |]; cbn in E.
    - unfold consumer in E. destruct (cp s) eqn:C; [destruct (calls s) eqn:K; [discriminate |]; destruct (owner s); [discriminate |] | | destruct (queue s) | | discriminate | destruct (owner s); [discriminate |]]; injection E as <-; split; cbn; auto.
      intros e H. apply in_app_or in H as [H | [<- | []]]; auto.
    - unfold other in E. destruct (nth_error (threads s) t) as [th |] eqn:T; [| discriminate]. assert (N : ~ In Clear (todo th)) by (apply A; eapply nth_error_In; eauto). destruct (todo th) as [| o r] eqn:D; [discriminate |].
      assert (U : forall th', (forall x, In x (todo th') -> In x (o :: r)) -> forall th0, In th0 (upd (threads s) t th') -> ~ In Clear (todo th0)).
      { intros th' Hs th0 H. apply in_upd in H as [-> | H]; auto. }
      destruct (tp th), o; try discriminate; try (destruct (owner s); [discriminate |]); try (destruct (max <=? length (queue s))); injection E as <-; split; cbn [threads gone]; auto; try (apply U; cbn; auto; fail); exfalso; apply N; now left.
    - destruct (cp s) eqn:C; try discriminate. injection E as <-. split; auto.
  Qed.
  Lemma run_popped ls : forall s s', popped_only s -> run max ls s = Some s' -> popped_only s'.
  Proof.
    induction ls as [| l ls IH]; intros s s' O E; cbn in E; [injection E as <-; exact O |]. destruct (exec max l s) eqn:X; [| discriminate]. eapply IH; [eapply exec_popped; eauto | exact E].
  Qed.
  Lemma filter_all {A} (f : A -> bool) (l : list A) : (forall x, In x l -> f x = true) -> filter f l = l.
  Proof. induction l as [| a l IH]; intros H; auto. cbn. rewrite (H a) by now left. f_equal. apply IH. intros x Hx. apply H. now right. Qed.

  Context (k : nat) (ps : list (list (op M))) (ls : list label) (s : state M) (E : run max ls (initial k ps) = Some s).
  Lemma run_init_inv : inv s.
  Proof. eapply run_inv; eauto using initial_inv. Qed.
  Lemma order_ok : accepted (hist s) = map snd (gone s) ++ queue s /\ returned (rets s) = map snd (filter fst (gone s)) /\
    (forall t p, nth_error ps t = Some p -> exists rest, pushes p = pushed_by t (hist s) ++ rest).
  Proof.
    pose proof run_init_inv as I. split; [apply I |]. split; [apply I |]. intros t p Ep. pose proof (run_ordered max ps ls _ _ (initial_inv k ps) (initial_ordered k ps) E) as [_ O]. destruct (O t p Ep) as (th & _ & H). eauto.
  Qed.
  Lemma fifo_ok : clear_free ps -> accepted (hist s) = returned (rets s) ++ queue s.
  Proof.
    intros F. pose proof run_init_inv as I. rewrite (i_acc s I), (i_ret s I). assert (P : popped_only s).
    { eapply run_popped; [| exact E]. split; cbn; [| tauto]. intros th H. apply in_map_iff in H as (p & <- & Hp). cbn. auto. }
    rewrite (filter_all fst); auto. apply P.
  Qed.
  Lemma drops_ok : forall h1 t m h2, hist s = h1 ++ (t, m, false) :: h2 -> max <= length (accepted h1).
  Proof. apply (run_drops max ls _ _ (initial_inv k ps)) in E; [exact E |]. intros h1 t m h2 H. destruct h1; discriminate. Qed.
  Lemma ends_ok : length ls <= 3 * k + 6 * length (concat ps) + 4 * spurious ls.
  Proof. apply run_work in E. rewrite initial_work in E. lia. Qed.
  Lemma delivered_ok : stuck max s -> all_done s /\ (forall t p, nth_error ps t = Some p -> pushed_by t (hist s) = pushes p) /\
    (length (rets s) = k \/ cp s = CSleep /\ queue s = []).
  Proof.
    intros K. pose proof run_init_inv as I. destruct (stuck_threads max s I K) as [D _]. split; auto. split.
    - intros t p Ep. pose proof (run_ordered max ps ls _ _ (initial_inv k ps) (initial_ordered k ps) E) as [_ O]. destruct (O t p Ep) as (th & T & H). rewrite H. unfold left. rewrite (D th) by (eapply nth_error_In; eauto). now destruct (tp th); cbn; rewrite app_nil_r.
    - destruct (stuck_consumer max s I K) as [[C Z0] | C]; auto. left. pose proof (run_counted max k ls (initial k ps) s ltac:(unfold counted; cbn; lia) E) as H. unfold counted in H. rewrite C, Z0 in H. lia.
  Qed.
End Proofs.

Lemma cancel_ok {M} max k ps ls t (s1 s2 : state M) ls' s3 : run max ls (initial k ps) = Some s1 -> cancels s1 t -> exec max (Thread t) s1 = Some s2 -> run max ls' s2 = Some s3 -> stuck max s3 ->
  calm max (ls ++ Thread t :: ls') (initial k ps) -> nothings (rets s1) < nothings (rets s3) \/ length (rets s3) = k.
Proof.
  intros E1 (r & T) E2 E3 K C.
  assert (E : run max (ls ++ Thread t :: ls') (initial k ps) = Some s3).
  { assert (A : forall l1 (s : state M) s' l2, run max l1 s = Some s' -> run max (l1 ++ l2) s = run max l2 s').
    { induction l1 as [| l l1 IH]; intros s s' l2 H; cbn in *; [congruence |]. destruct (exec max l s); [eauto | discriminate]. }
    rewrite (A _ _ _ _ E1). cbn [run]. rewrite E2. exact E3. }
  pose proof (run_init_inv max _ _ _ _ E) as I. pose proof (run_cinv max _ _ _ (initial_inv k ps) (initial_cinv k ps) C E) as CI.
  destruct (delivered_ok max _ _ _ _ E K) as (_ & _ & [F | [S0 _]]); auto. left.
  pose proof (stuck_waits max s3 I CI K S0) as W.
  destruct (run_cancelled max (nothings (rets s1)) ls' s2 s3) as [[W' _] | H]; auto; [| congruence].
  left. cbn in E2. unfold other in E2. rewrite T in E2. cbn in E2. injection E2 as <-. cbn. auto.
Qed.
Lemma run_step {M} max l ls (s s' : state M) r : exec max l s = Some s' -> run max ls s' = r -> run max (l :: ls) s = r.
Proof. intros E <-. cbn. now rewrite E. Qed.
Lemma calm_step {M} max l ls (s s' : state M) : exec max l s = Some s' -> (forall t, l = Thread t -> cancels s t -> cp s <> CBlock) -> calm max ls s' -> calm max (l :: ls) s.
Proof. intros E H C. split; auto. intros s2 E2. congruence. Qed.
