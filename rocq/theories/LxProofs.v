(** The parallel sort under every choice of the next step. *)
From Verif Require Import Base Mem MemLemmas Num SortModel SortSpec SortProofs Sort2Proofs Sort3Proofs Sort4Proofs Sort5Proofs Sort6Proofs Sort8Proofs AllModel EaModel LxModel.
Local Open Scope Z_scope.

Section Play.
  Context {E : Type} (cmp : E -> E -> option bool) (lt : E -> E -> bool) (check : bool) (a ws : list E) (pick : nat -> nat).
  Hypothesis sw : strict_weak lt.
  Hypothesis Hc : compares lt cmp a.
  Hypothesis Hw : length ws = length a.
  Let n := Z.of_nat (length a).
  Let run ts := par_run cmp check (end_positions n) n (par_init a ws) ts.

  Lemma run_app ts ts' s : par_run cmp check (end_positions n) n s (ts ++ ts') =
    match par_run cmp check (end_positions n) n s ts with Some s' => par_run cmp check (end_positions n) n s' ts' | None => None end.
  Proof. revert s. induction ts as [|t ts IH]; intros s; [reflexivity|]. cbn [app par_run]. destruct (par_step _ _ _ _ s t); [apply IH|reflexivity]. Qed.

  Lemma step_pcs s t s' : par_step cmp check (end_positions n) n s t = Some s' -> length (ps_pc s') = length (ps_pc s).
  Proof.
    unfold par_step. destruct (nth_error (ps_pc s) t) as [[l i [|]|l i|]|]; try discriminate.
    - destruct (call_range _ _ _ _) as [[f g]|]; [|discriminate]. destruct (do_call _ _ _ _ _ _ _) as [[x y]|]; [|discriminate]. intros [= <-]. cbn [ps_pc]. apply length_upd.
    - intros [= <-]. cbn [ps_pc]. apply length_upd.
    - destruct (nth_error (ps_level s) l); [|discriminate]. intros [= <-]. cbn [ps_pc]. apply length_upd.
  Qed.
  Lemma run_pcs ts : forall s s', par_run cmp check (end_positions n) n s ts = Some s' -> length (ps_pc s') = length (ps_pc s).
  Proof.
    induction ts as [|t ts IH]; intros s s' H; [now injection H as <-|]. cbn [par_run] in H. destruct (par_step _ _ _ _ s t) as [s1|] eqn:E1; [|discriminate].
    rewrite (IH _ _ H). eapply step_pcs; eauto.
  Qed.

  Lemma play_completes fuel : forall ts0 s, run ts0 = Some s -> (45 < length ts0 + fuel)%nat ->
    exists s', par_run cmp check (end_positions n) n s (play cmp check (end_positions n) n pick fuel s) = Some s' /\ forallb is_fin (ps_pc s') = true.
  Proof.
    induction fuel as [|f IH]; intros ts0 s HR HF.
    - pose proof (par_bounded cmp lt sw check a ws Hc Hw ts0 s HR). lia.
    - cbn [play]. assert (LP : length (ps_pc s) = 8%nat) by (rewrite (run_pcs _ _ _ HR); reflexivity).
      destruct (filter (fun t => negb (is_fin (nth t (ps_pc s) Fin8))) (seq 0 8)) as [|u0 u] eqn:Ef.
      + exists s. split; [reflexivity|]. apply forallb_forall. intros p Hp. apply (In_nth _ _ Fin8) in Hp as (t & Ht & <-).
        destruct (is_fin (nth t (ps_pc s) Fin8)) eqn:Et; [reflexivity|]. exfalso.
        assert (In t (filter (fun t => negb (is_fin (nth t (ps_pc s) Fin8))) (seq 0 8))) as Hin by (apply filter_In; split; [apply in_seq; lia|now rewrite Et]). rewrite Ef in Hin. destruct Hin.
      + set (t := nth (pick f mod length (u0 :: u)) (u0 :: u) 0%nat).
        assert (Ht : In t (u0 :: u)) by (apply nth_In, Nat.mod_upper_bound; discriminate). rewrite <- Ef in Ht. apply filter_In in Ht as (Hseq & Hnf).
        destruct (nth_error (ps_pc s) t) as [p|] eqn:Ep; [|apply nth_error_None in Ep; apply in_seq in Hseq; lia].
        rewrite (nth_error_nth _ _ Fin8 Ep) in Hnf.
        destruct (par_progress cmp lt sw check a ws Hc Hw ts0 s t p HR Ep) as (s1 & E1); [intros ->; discriminate|].
        fold n in E1. rewrite run_app in E1. unfold run in HR. rewrite HR in E1. cbn [par_run] in E1. destruct (par_step cmp check (end_positions n) n s t) as [s2|] eqn:E2; [|discriminate]. injection E1 as <-.
        destruct (IH (ts0 ++ [t]) s2) as (s' & E3 & F3).
        * unfold run. rewrite run_app, HR. cbn [par_run]. now rewrite E2.
        * rewrite app_length. cbn [length]. lia.
        * exists s'. split; [|exact F3]. cbn [par_run]. now rewrite E2.
  Qed.
End Play.

Lemma sort_one m junk k c lt a : strict_weak lt -> compares lt (c_lt c) a -> (length a <= length junk)%nat ->
  exists r, par_amergesort (t_on m) (play (c_lt c) (c_check c) (end_positions (Z.of_nat (length a))) (Z.of_nat (length a)) (t_pick m k) 64 (par_init a (firstn (length a) junk))) junk c a = Some r /\ stable_sort lt a r.
Proof.
  intros sw Hc Hj. set (ts := play _ _ _ _ _ _ _).
  assert (H : exists r, par_amergesort (t_on m) ts junk c a = Some r).
  { destruct (t_on m).
    - destruct (par_amergesort_total junk c lt a sw Hc Hj) as (r0 & E0). unfold par_amergesort in E0 |- *. destruct (Z.of_nat (length a) <? BIG); [eauto|].
      destruct (play_completes (c_lt c) lt (c_check c) a (firstn (length a) junk) (t_pick m k) sw Hc) with (fuel := 64%nat) (ts0 := @nil nat) (s := par_init a (firstn (length a) junk)) as (s & E1 & F1);
        [rewrite firstn_length; lia|reflexivity|cbn; lia|]. unfold ts. rewrite E1, F1. eauto.
    - destruct (par_amergesort_total junk c lt a sw Hc Hj) as (r0 & E0). unfold par_amergesort in E0 |- *. eauto. }
  destruct H as (r & E). exists r. split; [exact E|]. eapply par_amergesort_ok; eauto.
Qed.

Lemma sort_all m junk index : forall cols lts k a, columns_ok index cols lts -> (forall x, In x a -> In x index) -> (length a <= length junk)%nat ->
  exists r, sort_columns m junk k cols a = Some r /\ stable_sort (lex_lt lts) a r.
Proof.
  intros cols lts k a H. revert k a. induction H as [|c lt cols lts [H1 H2] H3 IH]; intros k a Ha Hj.
  - exists a. split; [reflexivity|]. split; auto. split; [intros i j x y _ _ _; auto|auto].
  - cbn [sort_columns]. destruct (sort_one m junk k c lt a H1) as (b & E & Sb); [eapply compares_sub; eauto|exact Hj|]. rewrite E.
    destruct (IH (S k) b) as (r & Er & Sr).
    + intros x Hx. apply Ha. now apply (stable_in _ _ _ Sb).
    + rewrite (stable_length _ _ _ Sb). exact Hj.
    + exists r. split; [exact Er|]. cbn [lex_lt]. apply (then_stable (lex_lt lts) lt) with (b := b); auto. apply lex_sw. clear -H3. induction H3; constructor; tauto.
Qed.
