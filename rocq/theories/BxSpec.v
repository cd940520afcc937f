(** The rows of a mask. *)
From Verif Require Import Base EaModel EaSpec.
Local Open Scope Z_scope.

(** The rows that are set, and those that are not, in ascending order. *)
Definition set_rows (l : list Z) : list nat := filter (fun i => negb (nth i l 0 =? 0)) (seq 0 (length l)).
Definition unset_rows (l : list Z) : list nat := filter (fun i => nth i l 0 =? 0) (seq 0 (length l)).
(** A mask of bytes that lies within its memory; gaps are allowed. *)
Definition is_mask (m : arg Z) : Prop := a_dtype m = 0 /\ 0 <= a_len m /\ arg_ok (a_len m) m /\ Forall (fun b => 0 <= b < 256) (a_mem m).
