(** Properties of the recycler of arrays. *)
From Coq Require Import List ZArith Lia Bool.
From Verif Require Import Base RecycleModel RecycleSpec RecycleProofs.
Import ListNotations.
Local Open Scope Z_scope.

(** C29: an array that is handed out is one that nobody refers to, of the wanted type and size, and it is in no slot any more. *)
Theorem C29_find_partial : forall s own ndim type size o s', rreached s own -> 0 <= type -> RecycleFindArray ndim type size s = Some (Some o, s') ->
  ndim = 1 /\ nth o own 0 = 0 /\ in_slot s o /\ ~ in_slot s' o /\ exists b, nth_error (objs s') o = Some b /\ o_type b = type /\ o_size b = size /\ o_refs b = 1.
Proof. exact find_spec. Qed.
Print Assumptions C29_find_partial.

(** C29: the reference count of an array is what Python holds, and one more if the array is kept: what nobody refers to is kept or freed, nothing leaks. *)
Theorem C29_counts_partial : forall s own o b, rreached s own -> nth_error (objs s) o = Some b ->
  0 <= nth o own 0 /\ ((in_slot s o /\ o_refs b = nth o own 0 + 1) \/ (~ in_slot s o /\ o_refs b = nth o own 0)).
Proof. exact counts_spec. Qed.
Print Assumptions C29_counts_partial.

(** C29: no freed array is touched, no empty slot is released and the table is never left. *)
Theorem C29_safe_partial : forall s own op, rreached s own -> rallowed op s own -> exists s' own', rstep op s own = Some (s', own').
Proof. exact safe_spec. Qed.
Print Assumptions C29_safe_partial.

(** C29: a list has four slots and Head - Tail of them are in use. *)
Theorem C29_room_partial : forall s own l t, rreached s own ->
  length (items (tab s l t)) = SEARCH /\ head (tab s l t) - tail (tab s l t) = used (items (tab s l t)) /\ 0 <= used (items (tab s l t)) <= 4.
Proof. exact room_spec. Qed.
Print Assumptions C29_room_partial.

(** C29: a garbage collection lets go of the arrays that are too old and of no other. *)
Theorem C29_collect_partial : forall old s own s', rreached s own -> GarbageCollect old s = Some s' ->
  forall l t k it, 0 <= l < 64 -> 0 <= t < TYPES ->
    (nth_error (items (tab s' l t)) k = Some (Some it) <-> nth_error (items (tab s l t)) k = Some (Some it) /\ old (r_tsc it) = false).
Proof. exact collect_spec. Qed.
Print Assumptions C29_collect_partial.

(** C29: an array is kept in the list of its type and size. *)
Theorem C29_stored_partial : forall s own l t k it, rreached s own -> nth_error (items (tab s l t)) k = Some (Some it) ->
  exists b, nth_error (objs s) (r_arr it) = Some b /\ o_type b = t /\ o_size b = r_size it /\ lzcnt (o_size b) = l /\ 1 <= o_size b.
Proof. exact stored_spec. Qed.
Print Assumptions C29_stored_partial.

(** C29: when the last reference to an array is dropped it is freed, or kept and referred to by the recycler alone. *)
Theorem C29_drop_partial : forall s own o tsc s' own', rreached s own -> nth o own 0 = 1 -> rstep (RDrop o true tsc None) s own = Some (s', own') ->
  (refs_of s' o = 0 /\ ~ in_slot s' o) \/ (refs_of s' o = 1 /\ in_slot s' o).
Proof. exact freed_or_kept. Qed.
Print Assumptions C29_drop_partial.

Fixpoint rrun (ops : list rop) (s : rstate) (own : list Z) : option (rstate * list Z) :=
  match ops with [] => Some (s, own) | op :: r => match rstep op s own with Some (s', own') => rrun r s' own' | None => None end end.
(** five arrays of three int32 are dropped: the first one is let go to make room for the fifth; the next to be found is in slot 0 *)
Example C29_example :
  match rrun [RNew 5 3 10; RNew 5 3 20; RNew 5 3 30; RNew 5 3 40; RNew 5 3 50; RDrop 0 true 1 None; RDrop 1 true 2 None; RDrop 2 true 3 None; RDrop 3 true 4 None; RDrop 4 true 5 None] rinit [] with
  | Some (s, own) => (map o_refs (objs s), own, match RecycleFindArray 1 5 3 s with Some (r, s') => Some (r, used (items (tab s' 62 5))) | None => None end) = ([0; 1; 1; 1; 1], [0; 0; 0; 0; 0], Some (Some 4%nat, 3))
  | None => False
  end.
Proof. vm_compute. reflexivity. Qed.
Example C29_reached_example : exists s, rreached s [0] /\ RecycleFindArray 1 5 3 s <> None /\ in_slot s 0%nat.
Proof.
  eexists; split.
  - eapply (rreached_step (RDrop 0 true 1 None)); [eapply (rreached_step (RNew 5 3 10)); [constructor | cbn; lia | reflexivity] | cbn; lia | vm_compute; reflexivity].
  - split; [vm_compute; discriminate |]. exists 62, 5, 0%nat. eexists. split; [vm_compute; reflexivity | reflexivity].
Qed.

(** C29 fails for a negative type number, which AllocateNumpy and TryRecycleNumpy take from Python as it is: the table is read outside of its bounds. *)
Theorem C29_type_refuted : exists s own ndim type size, rreached s own /\ RecycleFindArray ndim type size s = None.
Proof. exists rinit, [], 1, (-1), 5. split; [constructor | vm_compute; reflexivity]. Qed.
Print Assumptions C29_type_refuted.
