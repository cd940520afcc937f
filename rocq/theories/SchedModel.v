(** Model of the thread pool: /repo/src/MathThreads.h, MathThreads.cpp, MathWorker.h.

    Counters are unbounded naturals (64-bit wrap of the work counters is not modelled).
    Each constructor of a program counter is a point between two shared-memory accesses of the
    C++ code; each step performs one access (sequential consistency). *)
From Verif Require Import Base.

(** ** Work items *)

(* MathThreads.h:148-150 *)
Definition WORK_ITEM_CHUNK : Z := 0x4000.
Definition WORK_ITEM_BIG : Z := WORK_ITEM_CHUNK * 2.
Definition WORK_ITEM_MASK : Z := WORK_ITEM_CHUNK - 1.

(* MathThreads.h:142-199, struct stMATH_WORKER_ITEM.  The callback pointers and their arguments
   (DoWorkCallback, WorkCallbackArg, MTWorkCallback, OldCallback) are represented by [itCall],
   the number of the call that filled the item. *)
Record item := mkItem {
  itCall : nat;
  itTotal : Z;        (* TotalElements *)
  itBlockSize : Z;    (* BlockSize *)
  itBlockLast : nat;  (* BlockLast *)
  itBlockNext : nat;  (* BlockNext, atomic *)
  itDone : nat        (* BlocksCompleted, atomic *)
}.

(* A request as passed to WorkMain, MathWorker.h:398: len, threadWakeup (already clamped to the
   machine's maximum, MathWorker.h:408-420), BlockSize, bGenericMode *)
Record request := mkReq { rqLen : Z; rqWakeup : Z; rqBlockSize : Z; rqGeneric : bool }.

(* MathWorker.h:422-432, the number of blocks *)
Definition block_last (r : request) : nat :=
  if rqGeneric r then Z.to_nat ((rqLen r + (rqBlockSize r - 1)) / rqBlockSize r)
  else Z.to_nat (rqLen r).

(* MathWorker.h:401, 422-436: filling the item *)
Definition fill (call : nat) (r : request) : item :=
  mkItem call (rqLen r) (rqBlockSize r) (block_last r) 0 0.

(* MathThreads.h:241-270, GetNextWorkBlock after the atomic increment returned [b]:
   the number of elements of block [b]; 0 means no work *)
Definition block_len (it : item) (interrupted : bool) (b : nat) : Z :=
  if (b <? itBlockLast it) && negb interrupted then
    if (b + 1 =? itBlockLast it)
       && negb (Z.land (itTotal it) WORK_ITEM_MASK =? 0)%Z
    then Z.land (itTotal it) WORK_ITEM_MASK
    else itBlockSize it
  else 0%Z.

(* MathWorker.h:252, the first element of block [b] *)
Definition block_start (it : item) (b : nat) : Z := (itBlockSize it * Z.of_nat b)%Z.

(* MathThreads.h:229 and 248: both GetNextWorkIndex and GetNextWorkBlock accept block [b] iff: *)
Definition accepts (it : item) (interrupted : bool) (b : nat) : bool :=
  (b <? itBlockLast it) && negb interrupted.

(** ** The ring and the threads *)

(* MathThreads.h:285-286 *)
Definition RING_BUFFER_SIZE : Z := 1024.
(* MathThreads.h:323-331: slot of GetWorkItem is WorkIndex & MASK, of GetExistingWorkItem (WorkIndex-1) & MASK *)
Definition slot_of (i : nat) : nat := Z.to_nat (Z.of_nat i mod RING_BUFFER_SIZE).

(* Program counters of a worker thread, MathThreads.cpp:80-177 (WorkerThreadFunction) *)
Inductive wpc :=
| WBorn                            (* before ++ThreadsAwakened, line 103 *)
| WTop                             (* loop head *)
| WRead (wi : nat)                 (* WorkIndex read, WorkIndexCompleted not yet; lines 113-114 *)
| WGate (wi : nat)                 (* workIndex > workIndexCompleted, before decrementing ThreadWakeup; 122 *)
| WItem (wi : nat)                 (* before GetExistingWorkItem; 125 *)
| WDo (wi s : nat) (did : bool)    (* in the callback loop on slot s, before GetWorkBlock *)
| WGot (wi s b : nat) (did : bool) (* block number b obtained, not yet compared with BlockLast *)
| WRun (wi s b : nat)              (* inside the user's callback on block b *)
| WFin (wi s : nat)                (* before CompleteWorkBlock *)
| WSleep (wi : nat)                (* before --ThreadsAwakened; 136 *)
| WFutex (wi : nat).               (* in the futex wait or before ++ThreadsAwakened; 165-177 *)

(* Program counters of the main thread, MathWorker.h:398-475 (WorkMain) *)
Inductive mpc :=
| MIdle
| MPub (w : Z)                (* item filled, before SetWorkItem's increment *)
| MWake (w : Z)               (* WorkIndex incremented, before ThreadWakeup is stored; MathThreads.h:337-339 *)
| MDo                         (* in DoWork(-1,0), before GetWorkBlock *)
| MGot (b : nat)
| MRun (b : nat)
| MFin
| MWait                       (* spin on BlocksCompleted; 444-462 *)
| MComplete                   (* before CompleteWorkItem; 465 *)
| MJoin.                      (* spin on ThreadsAwakened; 468-472 *)

Record state := mkState {
  WorkIndex : nat;
  WorkIndexCompleted : nat;
  ThreadWakeup : Z;
  ThreadsAwakened : Z;
  queue : nat -> item;          (* WorkerQueue, by slot *)
  interrupted : bool;           (* interrupt.cpp interrupted_ *)
  main : mpc;
  workers : list wpc;
  (* history, not present in the code *)
  ran : list (nat * nat);       (* finished callback executions (call, block), most recent first *)
  calls : list request;         (* calls made so far, in order *)
  intr_seen : bool              (* an interrupt was pending at some point of the latest call *)
}.

Definition set_item (q : nat -> item) (s : nat) (it : item) : nat -> item :=
  fun s' => if s' =? s then it else q s'.

Definition take_block (it : item) : item :=  (* MathThreads.h:206-210 GetWorkBlock *)
  mkItem (itCall it) (itTotal it) (itBlockSize it) (itBlockLast it) (S (itBlockNext it)) (itDone it).
Definition complete_block (it : item) : item := (* MathThreads.h:213-217 CompleteWorkBlock *)
  mkItem (itCall it) (itTotal it) (itBlockSize it) (itBlockLast it) (itBlockNext it) (S (itDone it)).

(* MathThreads.h:303-311 Init; the slots are uninitialised memory, modelled as arbitrary *)
Definition init (n : nat) (q : nat -> item) : state :=
  mkState 0 0 0 0 q false MIdle (repeat WBorn n) [] [] false.

Inductive label :=
| LCall (r : request)     (* the user starts a threaded operation *)
| LMain                   (* one step of the main thread inside WorkMain *)
| LWorker (w : nat)       (* one step of worker w *)
| LInterrupt              (* SIGINT arrives, interrupt.cpp:11-14 *)
| LClear.                 (* interruptible_section boundaries, interrupt.cpp:21,28: only between calls *)

(* Main thread, MathWorker.h:398-475 *)
Definition main_step (st : state) : option state :=
  let cur := slot_of (WorkIndex st - 1) in
  let it := queue st cur in
  let st_main m := mkState (WorkIndex st) (WorkIndexCompleted st) (ThreadWakeup st) (ThreadsAwakened st)
                     (queue st) (interrupted st) m (workers st) (ran st) (calls st) (intr_seen st) in
  let st_item it' m := mkState (WorkIndex st) (WorkIndexCompleted st) (ThreadWakeup st) (ThreadsAwakened st)
                     (set_item (queue st) cur it') (interrupted st) m (workers st) (ran st) (calls st) (intr_seen st) in
  match main st with
  | MIdle => None
  | MPub w => Some (mkState (S (WorkIndex st)) (WorkIndexCompleted st) (ThreadWakeup st) (ThreadsAwakened st)
                     (queue st) (interrupted st) (MWake w) (workers st) (ran st) (calls st) (intr_seen st))
  | MWake w => Some (mkState (WorkIndex st) (WorkIndexCompleted st) w (ThreadsAwakened st)
                     (queue st) (interrupted st) MDo (workers st) (ran st) (calls st) (intr_seen st))
  | MDo => Some (st_item (take_block it) (MGot (itBlockNext it)))
  | MGot b => Some (st_main (if accepts it (interrupted st) b then MRun b else MWait))
  | MRun b => Some (mkState (WorkIndex st) (WorkIndexCompleted st) (ThreadWakeup st) (ThreadsAwakened st)
                     (queue st) (interrupted st) MFin (workers st) ((itCall it, b) :: ran st) (calls st) (intr_seen st))
  | MFin => Some (st_item (complete_block it) MDo)
  | MWait => Some (st_main (if (itDone it <? itBlockLast it) && negb (interrupted st) then MWait else MComplete))
  | MComplete => Some (mkState (WorkIndex st) (S (WorkIndexCompleted st)) (ThreadWakeup st) (ThreadsAwakened st)
                     (queue st) (interrupted st) MJoin (workers st) (ran st) (calls st) (intr_seen st))
  | MJoin => Some (st_main (if (ThreadsAwakened st =? 0)%Z then MIdle else MJoin))
  end.

(* Worker thread, MathThreads.cpp:80-177, with the callback loops of MathWorker.h:176-197, 234-262, 479-562
   (all of them: get a block, run it, complete it, until none is accepted) *)
Definition worker_step (st : state) (w : nat) : option state :=
  match nth_error (workers st) w with
  | None => None
  | Some pc =>
    let goto pc' := mkState (WorkIndex st) (WorkIndexCompleted st) (ThreadWakeup st) (ThreadsAwakened st)
                     (queue st) (interrupted st) (main st) (upd (workers st) w pc') (ran st) (calls st) (intr_seen st) in
    let awake d pc' := mkState (WorkIndex st) (WorkIndexCompleted st) (ThreadWakeup st) (ThreadsAwakened st + d)%Z
                     (queue st) (interrupted st) (main st) (upd (workers st) w pc') (ran st) (calls st) (intr_seen st) in
    let with_item s it' pc' := mkState (WorkIndex st) (WorkIndexCompleted st) (ThreadWakeup st) (ThreadsAwakened st)
                     (set_item (queue st) s it') (interrupted st) (main st) (upd (workers st) w pc') (ran st) (calls st) (intr_seen st) in
    match pc with
    | WBorn => Some (awake 1%Z WTop)
    | WTop => Some (goto (WRead (WorkIndex st)))
    | WRead wi => Some (goto (if WorkIndexCompleted st <? wi then WGate wi else WSleep wi))
    | WGate wi => Some (mkState (WorkIndex st) (WorkIndexCompleted st) (ThreadWakeup st - 1)%Z (ThreadsAwakened st)
                     (queue st) (interrupted st) (main st)
                     (upd (workers st) w (if (0 <=? ThreadWakeup st - 1)%Z then WItem wi else WSleep wi))
                     (ran st) (calls st) (intr_seen st))
    | WItem wi => Some (goto (WDo wi (slot_of (WorkIndex st - 1)) false))
    | WDo wi s did => Some (with_item s (take_block (queue st s)) (WGot wi s (itBlockNext (queue st s)) did))
    | WGot wi s b did =>
        Some (goto (if accepts (queue st s) (interrupted st) b then WRun wi s b
                    else if did then WTop else WSleep wi))
    | WRun wi s b => Some (mkState (WorkIndex st) (WorkIndexCompleted st) (ThreadWakeup st) (ThreadsAwakened st)
                     (queue st) (interrupted st) (main st) (upd (workers st) w (WFin wi s))
                     ((itCall (queue st s), b) :: ran st) (calls st) (intr_seen st))
    | WFin wi s => Some (with_item s (complete_block (queue st s)) (WDo wi s true))
    | WSleep wi => Some (awake (-1)%Z (WFutex wi))
    | WFutex wi => Some (awake 1%Z WTop)   (* the wait may return at any time *)
    end
  end.

Definition step (st : state) (l : label) : option state :=
  match l with
  | LCall r =>
      match main st with
      | MIdle => Some (mkState (WorkIndex st) (WorkIndexCompleted st) (ThreadWakeup st) (ThreadsAwakened st)
                        (set_item (queue st) (slot_of (WorkIndex st)) (fill (S (WorkIndex st)) r))
                        (interrupted st) (MPub (rqWakeup r)) (workers st) (ran st) (calls st ++ [r]) (interrupted st))
      | _ => None
      end
  | LMain => main_step st
  | LWorker w => worker_step st w
  | LInterrupt => Some (mkState (WorkIndex st) (WorkIndexCompleted st) (ThreadWakeup st) (ThreadsAwakened st)
                        (queue st) true (main st) (workers st) (ran st) (calls st) true)
  | LClear =>
      match main st with
      | MIdle => Some (mkState (WorkIndex st) (WorkIndexCompleted st) (ThreadWakeup st) (ThreadsAwakened st)
                        (queue st) false (main st) (workers st) (ran st) (calls st) (intr_seen st))
      | _ => None
      end
  end.

Fixpoint exec (st : state) (ls : list label) : option state :=
  match ls with
  | [] => Some st
  | l :: ls' => match step st l with Some st' => exec st' ls' | None => None end
  end.
