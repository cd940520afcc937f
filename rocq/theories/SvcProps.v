(** Property C72: the start and the stop of the logging service. *)
From Verif Require Import Base SvcModel SvcSpec SvcProofs Svc2Proofs.

(** In every interleaving the records handled, in the handler's batch and in the queue are all those pushed, once each and in the order of the pushes. *)
Theorem C72_order {M} bsize ms (s : service M) : reaches bsize ms s -> handled s ++ batch s ++ sq s = log_of s.
Proof. intros R. exact (v_log _ _ (reaches_sinv _ _ _ R)). Qed.
Print Assumptions C72_order.
(** From every state disable() can return, as the flusher goes on waking the handler until it has ended: a lost wake up does not block it. *)
Theorem C72_stops {M} bsize ms (s : service M) : 1 <= bsize -> reaches bsize ms s -> exists s', later bsize s s' /\ dp s' = DEnd.
Proof. exact (stops_ok bsize ms s). Qed.
Print Assumptions C72_stops.
(** When disable() has returned the handler has ended. *)
Theorem C72_ended {M} bsize ms (s : service M) : reaches bsize ms s -> dp s = DEnd -> hp s = HDone.
Proof. intros R D. apply (v_done _ _ (reaches_sinv _ _ _ R)). auto. Qed.
Print Assumptions C72_ended.
(** Records pushed are handled before the handler ends, guarded: the handler was not between the two tests of active() in its outer loop. *)
Theorem C72_handled_partial {M} bsize ms (s s' : service M) : reaches bsize ms s -> ~ between_tests s -> hp s <> HDone -> later bsize s s' -> hp s' = HDone ->
  exists t, handled s' = log_of s ++ t.
Proof. exact (handled_ok bsize ms s s'). Qed.
Print Assumptions C72_handled_partial.
(** Logging can be enabled again, guarded: the queue is empty when disable() has returned. *)
Theorem C72_again_partial {M} bsize ms (s : service M) : reaches bsize ms s -> dp s = DEnd -> sq s = [] -> hp (enable_again s) = HOuter /\ shut (enable_again s) = false.
Proof. exact (again_ok bsize ms s). Qed.
Print Assumptions C72_again_partial.

(** A record whose log call returned before disable() was called is never handled, and EnableLogging does nothing afterwards: the handler tested the
    queue before the push and shutdown_ after disable() had set it. *)
Theorem C72_lost_refuted : exists (s1 s2 : service nat), reaches 50 [7] s1 /\ dp s1 = DIdle /\ logged s1 0 7 /\ later 50 s1 s2 /\ dp s2 = DEnd /\ ~ In 7 (handled s2) /\
  sq s2 = [7] /\ enable_again s2 = s2 /\ hp s2 = HDone.
Proof.
  eexists. eexists. split; [exists [Handler false; Producer 0; Producer 0; Producer 0]; repeat (eapply turns_step; [cbv; reflexivity |]); reflexivity |].
  split; [reflexivity |]. split; [split; [reflexivity | now left] |].
  split; [exists [Disabler; Disabler; Disabler; Handler false; Disabler; Disabler; Disabler; Disabler]; repeat (eapply turns_step; [cbv; reflexivity |]); reflexivity |].
  repeat split; try reflexivity. intros [].
Qed.
Print Assumptions C72_lost_refuted.
(** With a batch size of zero (which EnableLogging accepts) a queued record keeps disable() from ever returning. *)
Theorem C72_zero_batch_refuted : exists ms (s : service nat), reaches 0 ms s /\ forall s', later 0 s s' -> dp s' <> DEnd.
Proof.
  exists [7]. eexists. split; [exists [Producer 0; Producer 0; Producer 0]; repeat (eapply turns_step; [cbv; reflexivity |]); reflexivity |].
  intros s'. apply (zero_batch 0 [7]); try discriminate; auto. exists [Producer 0; Producer 0; Producer 0]; repeat (eapply turns_step; [cbv; reflexivity |]); reflexivity.
Qed.
Print Assumptions C72_zero_batch_refuted.

(* two records logged, both handled, and disable() returns *)
Example ex_service : exists s : service nat, reaches 2 [7; 8] s /\ handled s = [7; 8] /\ dp s = DEnd /\ hp (enable_again s) = HOuter.
Proof.
  eexists. split; [exists ([Producer 1; Handler false; Handler false; Producer 0; Producer 0; Producer 0; Handler false; Handler false; Handler false; Producer 1; Producer 1; Handler false; Handler false; Handler true;
     Disabler; Disabler; Disabler; Disabler; Disabler; Handler false; Handler false; Handler false; Handler false; Disabler; Disabler] ++ []) |].
  - cbn [app]. repeat (eapply turns_step; [cbv; reflexivity |]). reflexivity.
  - repeat split; reflexivity.
Qed.
