(** Property C36: the queue of log records. *)
From Verif Require Import Base LogModel LogSpec LogProofs Log2Proofs Log3Proofs.

(** In every interleaving: the queued messages are, in the order of their pushes, those that left the queue and then those in it; pop_front returns
    each message that left in this order (cleared ones aside); every thread's messages are pushed in its order; a message is not queued only after
    [max] others were. *)
Theorem C36_order {M} max k (ps : list (list (op M))) ls s : run max ls (initial k ps) = Some s ->
  accepted (hist s) = map snd (gone s) ++ queue s /\ returned (rets s) = map snd (filter fst (gone s)) /\
  (forall t p, nth_error ps t = Some p -> exists rest, pushes p = pushed_by t (hist s) ++ rest).
Proof. exact (order_ok max k ps ls s). Qed.
Print Assumptions C36_order.
Theorem C36_fifo {M} max k (ps : list (list (op M))) ls s : run max ls (initial k ps) = Some s -> clear_free ps ->
  accepted (hist s) = returned (rets s) ++ queue s.
Proof. exact (fifo_ok max k ps ls s). Qed.
Print Assumptions C36_fifo.
Theorem C36_full_queue {M} max k (ps : list (list (op M))) ls s : run max ls (initial k ps) = Some s ->
  forall h1 t m h2, hist s = h1 ++ (t, m, false) :: h2 -> max <= length (accepted h1).
Proof. exact (drops_ok max k ps ls s). Qed.
Print Assumptions C36_full_queue.

(** Every run ends (wake ups by nobody aside), and where nothing can be done any more every call of the other threads has returned, and the consumer has
    returned from all its calls or sleeps at an empty queue: no message is left lying while the consumer sleeps. *)
Theorem C36_ends {M} max k (ps : list (list (op M))) ls s : run max ls (initial k ps) = Some s -> length ls <= 3 * k + 6 * length (concat ps) + 4 * spurious ls.
Proof. exact (ends_ok max k ps ls s). Qed.
Print Assumptions C36_ends.
Theorem C36_delivered {M} max k (ps : list (list (op M))) ls s : run max ls (initial k ps) = Some s -> stuck max s ->
  all_done s /\ (forall t p, nth_error ps t = Some p -> pushed_by t (hist s) = pushes p) /\ (length (rets s) = k \/ cp s = CSleep /\ queue s = []).
Proof. exact (delivered_ok max k ps ls s). Qed.
Print Assumptions C36_delivered.

(** A cancelled wait ends, guarded: no cancel_wait writes wait_ between the consumer's test and its sleep. After the write of cancel_wait some pop_front
    returns nothing, or all calls of pop_front return. *)
Theorem C36_cancel_partial {M} max k (ps : list (list (op M))) ls t s1 s2 ls' s3 : run max ls (initial k ps) = Some s1 -> cancels s1 t -> exec max (Thread t) s1 = Some s2 ->
  run max ls' s2 = Some s3 -> stuck max s3 -> calm max (ls ++ Thread t :: ls') (initial k ps) -> nothings (rets s1) < nothings (rets s3) \/ length (rets s3) = k.
Proof. exact (cancel_ok max k ps ls t s1 s2 ls' s3). Qed.
Print Assumptions C36_cancel_partial.

(** The cancelled wait that does not end: cancel_wait writes and notifies after the test and before the sleep. *)
Theorem C36_cancel_refuted : exists k (ps : list (list (op nat))) ls t s1 s2 ls' s3, run 10 ls (initial k ps) = Some s1 /\ cancels s1 t /\ exec 10 (Thread t) s1 = Some s2 /\
  run 10 ls' s2 = Some s3 /\ stuck 10 s3 /\ rets s3 = [] /\ cp s3 = CSleep /\ waits s3 = false.
Proof.
  exists 1, [[Cancel]], [Consumer; Consumer], 0. eexists. eexists. exists [Thread 0; Consumer]. eexists. repeat (split; [solve [reflexivity | exists []; reflexivity] |]).
  split; [| split; [| split]]; try reflexivity. intros [| [| [|] ] |] H; try reflexivity. congruence.
Qed.
Print Assumptions C36_cancel_refuted.
(** A full queue drops the message. *)
Theorem C36_dropped_refuted : exists (ps : list (list (op nat))) ls s, run 1 ls (initial 2 ps) = Some s /\ stuck 1 s /\ clear_free ps /\ returned (rets s) <> pushes (concat ps).
Proof.
  exists [[Push 4; Push 5]], [Thread 0; Thread 0; Thread 0; Thread 0; Thread 0; Consumer; Consumer; Consumer; Consumer; Consumer; Consumer]. eexists. split; [repeat (eapply run_step; [cbv; reflexivity |]); reflexivity |]. split; [| split].
  - intros [| [| [|] ] |] H; try reflexivity. congruence.
  - intros p [<- | []] [H | [H | []]]; discriminate.
  - discriminate.
Qed.
Print Assumptions C36_dropped_refuted.

(* two threads; the consumer sleeps first, is woken, gets a message of each and then nothing *)
Definition ex_ps : list (list (op nat)) := [[Push 1; Cancel]; [Push 2]].
Definition ex_ls : list label :=
  [Consumer; Consumer; Consumer; Thread 1; Thread 1; Thread 1; Consumer; Consumer; Consumer; Thread 0; Thread 0; Thread 0; Thread 0; Thread 0; Consumer; Consumer; Consumer; Consumer; Consumer; Consumer].
Example ex_log_run : exists s, run 10 ex_ls (initial 3 ex_ps) = Some s /\ stuck 10 s /\ rets s = [Some 2; Some 1; None].
Proof. eexists. split; [repeat (eapply run_step; [cbv; reflexivity |]); reflexivity |]. split; [| reflexivity]. intros [| [| [| [|] ] ] |] H; try reflexivity. Qed.
Example ex_log_calm : calm 10 ex_ls (initial 3 ex_ps).
Proof. unfold ex_ls. repeat (eapply calm_step; [cbv; reflexivity | intros t' Hl [r Hc] H; first [discriminate Hl | discriminate H] |]). exact I. Qed.
