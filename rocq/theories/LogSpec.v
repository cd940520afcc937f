(** What the queue of log records is meant to do. *)
From Verif Require Import Base LogModel.

Section Spec.
  Context {M : Type}.
  (** the messages a program pushes *)
  Definition pushes (p : list (op M)) : list M := flat_map (fun o => match o with Push m => [m] | _ => [] end) p.
  (** the pushes of thread [t], and those that entered the queue, in the order of the pushes *)
  Definition pushed_by (t : nat) (h : list (nat * M * bool)) : list M := map (fun e => snd (fst e)) (filter (fun e => fst (fst e) =? t) h).
  Definition accepted (h : list (nat * M * bool)) : list M := map (fun e => snd (fst e)) (filter snd h).
  (** the messages returned, and how often nothing was returned *)
  Definition returned (r : list (option M)) : list M := flat_map (fun o => match o with Some m => [m] | None => [] end) r.
  Definition nothings (r : list (option M)) : nat := length (filter (fun o => match o with Some _ => false | None => true end) r).
  (** no clear() in any program *)
  Definition clear_free (ps : list (list (op M))) : Prop := forall p, In p ps -> ~ In Clear p.
  Definition spurious (ls : list label) : nat := length (filter (fun l => match l with Spurious => true | _ => false end) ls).
  (** nothing can be done: nobody can take a step (a wake up by nobody aside) *)
  Definition stuck (max : nat) (s : state M) : Prop := forall l, l <> Spurious -> exec max l s = None.
  (** thread [t] is about to write wait_ in cancel_wait *)
  Definition cancels (s : state M) (t : nat) : Prop := exists r, nth_error (threads s) t = Some (Th (Cancel :: r) TRun).
  (** no cancel_wait writes wait_ between the consumer's test of its predicate and its going to sleep *)
  Fixpoint calm (max : nat) (ls : list label) (s : state M) : Prop :=
    match ls with
    | [] => True
    | l :: ls' => (forall t, l = Thread t -> cancels s t -> cp s <> CBlock) /\ forall s', exec max l s = Some s' -> calm max ls' s'
    end.
  (** all calls of the threads have returned *)
  Definition all_done (s : state M) : Prop := forall th, In th (threads s) -> todo th = [].
End Spec.
