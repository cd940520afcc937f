(** What the logging service is meant to do. *)
From Verif Require Import Base SvcModel.

Section Spec.
  Context {M : Type}.
  (** reachable after EnableLogging *)
  Definition reaches (bsize : nat) (ms : list M) (s : service M) : Prop := exists ws, turns bsize ws (enabled ms) = Some s.
  (** [later s s']: some interleaving leads from the one to the other *)
  Definition later (bsize : nat) (s s' : service M) : Prop := exists ws, turns bsize ws s = Some s'.
  (** call number [i] of log has returned after it pushed its record *)
  Definition logged (s : service M) (i : nat) (m : M) : Prop := nth_error (prods s) i = Some (m, PEnd) /\ In m (log_of s).
  (** between the two tests of active(), in the handler's outer loop *)
  Definition between_tests (s : service M) : Prop := hp s = HOuter2.
End Spec.
