(** Piecewise linear interpolation: what it is meant to be. *)
From Verif Require Import Base InterpModel.
Local Open Scope Qc_scope.

(** the line through two points *)
Definition line (p q : Qc * Qc) (x : Qc) : Qc := snd p + (snd q - snd p) * (x - fst p) / (fst q - fst p).
Definition increasing (pts : list (Qc * Qc)) : Prop := forall i j p q, (i < j)%nat -> nth_error pts i = Some p -> nth_error pts j = Some q -> fst p < fst q.
(** between two points the line through them; outside the first or last line, or its end where clipping *)
Definition interpolates (clip : bool) (pts : list (Qc * Qc)) (x d : Qc) : Prop :=
  (exists p q, nth_error pts 0 = Some p /\ nth_error pts 1 = Some q /\ x <= fst p /\ d = if clip then snd p else line p q x) \/
  (exists j p q, nth_error pts j = Some p /\ nth_error pts (S j) = Some q /\ fst p < x /\ x <= fst q /\ d = line p q x) \/
  (exists p q, nth_error pts (length pts - 2) = Some p /\ nth_error pts (length pts - 1) = Some q /\ fst q < x /\ d = if clip then snd q else line p q x).
Definition points (xp yp : list Qc) (o M : nat) : list (Qc * Qc) := combine (firstn M (skipn o xp)) (firstn M (skipn o yp)).
(** not above the last point *)
Definition reached (pts : list (Qc * Qc)) (x : Qc) : Prop := exists p, nth_error pts (length pts - 1) = Some p /\ x <= fst p.
Definition row_start (two : bool) (M i : nat) : nat := if two then (i * M)%nat else 0%nat.
