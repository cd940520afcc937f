(** Arrays kept for reuse: what Python may do and what it may rely on. *)
From Verif Require Import Base RecycleModel.
Local Open Scope Z_scope.

(** references are only taken to arrays that are alive, and only own references are dropped *)
Definition rallowed (op : rop) (s : rstate) (own : list Z) : Prop :=
  match op with
  | RNew type size mem => 0 <= type /\ 0 <= size < 2 ^ 63
  | RRef o => 0 < refs_of s o
  | RDrop o _ _ _ => 0 < nth o own 0
  | RFind _ type _ => 0 <= type
  | RCollect _ => True
  end.
Inductive rreached : rstate -> list Z -> Prop :=
| rreached_init : rreached rinit []
| rreached_step op s own s' own' : rreached s own -> rallowed op s own -> rstep op s own = Some (s', own') -> rreached s' own'.
(** the array is in a slot of the table *)
Definition in_slot (s : rstate) (o : nat) : Prop := exists l t k it, nth_error (items (tab s l t)) k = Some (Some it) /\ r_arr it = o.
(** how many slots of a list are in use *)
Definition used (l : list (option ritem)) : Z := Z.of_nat (countb (fun x => match x with Some _ => true | None => false end) l).
