(** Specification vocabulary for the thread pool theorems. *)
From Verif Require Import Base SchedModel.

(** A worker is inside the work callback of some call (it may read or write that call's arrays). *)
Definition inside_callback (pc : wpc) : Prop :=
  match pc with
  | WDo _ _ _ | WGot _ _ _ _ | WRun _ _ _ | WFin _ _ => True
  | _ => False
  end.

(** A state some execution of the pool with [n] workers can reach. *)
Definition reachable (n : nat) (st : state) : Prop :=
  exists q ls, exec (init n q) ls = Some st.

(** The blocks of call number [k] (calls are numbered 1, 2, ...) whose callback has run. *)
Definition ran_in (st : state) (k : nat) : list nat :=
  map snd (filter (fun e => fst e =? k) (ran st)).

(** Half-open interval of element indices. *)
Definition in_range (start len i : Z) : Prop := (start <= i < start + len)%Z.

(** Executing one block of an element-wise operation: writes [f i] for every [i] of the block. *)
Definition run_block {A} (f : Z -> A) (blk : Z * Z) (out : Z -> A) : Z -> A :=
  fun i => if ((fst blk <=? i) && (i <? fst blk + snd blk))%Z then f i else out i.
Definition run_blocks {A} (f : Z -> A) (blks : list (Z * Z)) (out : Z -> A) : Z -> A :=
  fold_left (fun o b => run_block f b o) blks out.

(** A step of the main thread or of a worker (no new call, no interrupt). *)
Definition thread_label (l : label) : Prop := match l with LWorker _ | LMain => True | _ => False end.

(** The (start, length) of the given blocks of a call. *)
Definition blocks_of (call : nat) (r : request) (bs : list nat) : list (Z * Z) :=
  map (fun b => (block_start (fill call r) b, block_len (fill call r) false b)) bs.

(** A schedule used by an example: two workers, one call of three blocks. *)
Definition example_schedule : list label :=
  concat (repeat [LWorker 0; LWorker 1] 4) ++
  LCall (mkReq 40000 2 WORK_ITEM_CHUNK true) :: concat (repeat [LMain; LWorker 1; LWorker 0] 11) ++
  repeat (LWorker 0) 3 ++ repeat (LWorker 1) 3 ++ [LMain].
