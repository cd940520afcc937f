(** src/logging/waiting_deque.h: the queue of log records between the threads that log and the thread that handles the records.
    Every lock, test, write and notification is one step; memory is sequentially consistent (the program reads and writes wait_ without
    the lock, which C++ calls a data race).  No proofs in this file. *)
From Verif Require Import Base.

Section Deque.
  Context {M : Type}.

  (* what another thread calls: push_back, cancel_wait, clear *)
  Inductive op := Push (m : M) | Cancel | Clear.
  (* THold: in the critical section of the call; TNotify: before notify_.notify_one() *)
  Inductive tpc := TRun | THold | TNotify.
  Record thread := Th { todo : list op; tp : tpc }.
  (* where the consumer is in pop_front, waiting_deque.h:12-31.  CTest, CTake, CBlock hold the lock:
     CTest: before the test of the predicate; CTake: the predicate held; CBlock: it did not, the thread is about to sleep;
     CSleep: sleeping in notify_.wait; CWake: woken, about to take the lock again *)
  Inductive cpc := CIdle | CTest | CTake | CBlock | CSleep | CWake.
  (* [queue], [waits], [owner]: deque_, wait_, lock_ (0: the consumer, S t: thread t).  [calls]: the calls of pop_front still to come.
     Ghosts: [hist]: the thread, message and fate (true: queued) of every push_back; [gone]: the messages which left the queue, true: popped;
     [rets]: the results of pop_front *)
  Record state := St { queue : list M; waits : bool; owner : option nat; cp : cpc; calls : nat; threads : list thread;
    hist : list (nat * M * bool); gone : list (bool * M); rets : list (option M) }.
  (* waiting_deque.h:69-74: the members when the queue is made; [k] calls of pop_front and the calls [ps] of the other threads are to come *)
  Definition initial (k : nat) (ps : list (list op)) : state := St [] true None CIdle k (map (fun p => Th p TRun) ps) [] [] [].

  (* who takes the next step; Spurious: the sleeping consumer is woken by nobody, which C++ allows *)
  Inductive label := Consumer | Thread (t : nat) | Spurious.

  Definition set_cp (s : state) (o : option nat) (p : cpc) : state := St (queue s) (waits s) o p (calls s) (threads s) (hist s) (gone s) (rets s).
  (* waiting_deque.h:14 (lock), 16-20 (the loop of wait), 22-30 *)
  Definition consumer (s : state) : option state :=
    match cp s with
    | CIdle => match calls s, owner s with
               | S k, None => Some (St (queue s) (waits s) (Some 0) CTest k (threads s) (hist s) (gone s) (rets s))
               | _, _ => None
               end
    | CTest => Some (set_cp s (Some 0) (if match queue s with [] => negb (waits s) | _ => true end then CTake else CBlock))
    | CTake => Some match queue s with
               | [] => St [] true None CIdle (calls s) (threads s) (hist s) (gone s) (rets s ++ [None])
               | m :: q => St q (waits s) None CIdle (calls s) (threads s) (hist s) (gone s ++ [(true, m)]) (rets s ++ [Some m])
               end
    | CBlock => Some (set_cp s None CSleep)
    | CSleep => None
    | CWake => match owner s with None => Some (set_cp s (Some 0) CTest) | Some _ => None end
    end.
  Definition woken (p : cpc) : cpc := match p with CSleep => CWake | _ => p end.
  (* waiting_deque.h:33-44 push_back, 52-56 clear, 58-62 cancel_wait (which takes no lock); [max]: max_size_, as set by set_max_size, 64-67 *)
  Definition other (max t : nat) (s : state) : option state :=
    match nth_error (threads s) t with
    | None => None
    | Some th =>
        let now := fun p r q w o c h g => St q w o c (calls s) (upd (threads s) t (Th r p)) h g (rets s) in
        match todo th with
        | [] => None
        | o :: r =>
            match tp th, o with
            | TNotify, _ => Some (now TRun r (queue s) (waits s) (owner s) (woken (cp s)) (hist s) (gone s))
            | TRun, Cancel => Some (now TNotify (o :: r) (queue s) false (owner s) (cp s) (hist s) (gone s))
            | TRun, _ => match owner s with
                         | None => Some (now THold (o :: r) (queue s) (waits s) (Some (S t)) (cp s) (hist s) (gone s))
                         | Some _ => None
                         end
            | THold, Push m =>
                if max <=? length (queue s) then Some (now TRun r (queue s) (waits s) None (cp s) (hist s ++ [(t, m, false)]) (gone s))
                else Some (now TNotify (o :: r) (queue s ++ [m]) (waits s) None (cp s) (hist s ++ [(t, m, true)]) (gone s))
            | THold, Clear => Some (now TRun r [] (waits s) None (cp s) (hist s) (gone s ++ map (fun m => (false, m)) (queue s)))
            | THold, Cancel => None
            end
        end
    end.
  Definition exec (max : nat) (l : label) (s : state) : option state :=
    match l with
    | Consumer => consumer s
    | Thread t => other max t s
    | Spurious => match cp s with CSleep => Some (set_cp s (owner s) CWake) | _ => None end
    end.
  Fixpoint run (max : nat) (ls : list label) (s : state) : option state :=
    match ls with
    | [] => Some s
    | l :: ls' => match exec max l s with Some s' => run max ls' s' | None => None end
    end.
End Deque.
Arguments op : clear implicits.
Arguments thread : clear implicits.
Arguments state : clear implicits.
