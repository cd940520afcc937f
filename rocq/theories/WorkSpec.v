(** Work space buffers: what callers may do and what they may rely on. *)
From Verif Require Import Base WorkModel.
Local Open Scope Z_scope.

(** While buffers are cached a caller holds one buffer at a time, switches caching only when no buffer is held, and buffers are
    collected only while caching is on and none is held. *)
Definition allowed (o : wop) (s : ws) (held : list (nat * Z)) : Prop :=
  match o with
  | WAlloc size _ => 0 <= size /\ (cached s = true -> held = [])
  | WFree i => True
  | WMode c => held = []
  | WCollect => cached s = true /\ held = []
  end.
(** the states that callers who keep to this can reach *)
Inductive reached : ws -> list (nat * Z) -> Prop :=
| reached_init : reached ws_init []
| reached_step o s h s' h' : reached s h -> allowed o s h -> wstep o s h = Some (s', h') -> reached s' h'.
(** buffers held are different, alive and large enough *)
Definition separate (s : ws) (held : list (nat * Z)) : Prop :=
  NoDup (map fst held) /\ NoDup (map fst (alive s)) /\ forall p size, In (p, size) held -> exists n, In (p, n) (alive s) /\ size <= n.
(** no buffer is lost: a buffer that is alive is held or kept for the next call *)
Definition none_lost (s : ws) (held : list (nat * Z)) : Prop := forall p n, In (p, n) (alive s) -> In p (map fst held) \/ glob s = Some p.
