(** src/logging/logging_service.h, logger.h and src/Logger.cpp: the service that hands log records to the handler thread, its start and its stop.
    One thread per logger call, the handler, the flusher (logging/timer.h) and one caller of disable() interleave; the operations of the
    queue that hold its lock are one step each (LogModel has them step by step). Sequentially consistent memory. No proofs in this file. *)
From Verif Require Import Base.

Section Service.
  Context {M : Type}.
  (* where the handler is, Logger.cpp:69-133:
     HOuter, HOuter2: in active() of the outer loop, logging_service.h:92, before the test of the queue, before the test of shutdown_;
     HInner: before the test of the inner loop, Logger.cpp:80; HRecv, HRecv2: in active() of receive(), logging_service.h:80;
     HPop: in pop_front before the test; HBlock: the test failed, about to sleep; HSleep, HWake; HSend: the batch is handled, Logger.cpp:90-132; HDone *)
  Inductive hpc := HOuter | HOuter2 | HInner | HRecv | HRecv2 | HPop | HBlock | HSleep | HWake | HSend | HDone.
  (* logger.h:21 (PCheck), logging_service.h:70 (PPush, PNotify); PEnd: the call has returned *)
  Inductive ppc := PCheck | PPush | PNotify | PEnd.
  (* logging_service.h:132 (DTest), 135 (DShut), 136 (DWake: wait_ = false, DNotify), 142 (DJoin), 156 (DCancel); DEnd: disable() has returned *)
  Inductive dpc := DIdle | DTest | DShut | DWake | DNotify | DJoin | DCancel | DEnd.
  (* logging/timer.h:32-46, logging_service.h:122-127: FIdle: between two calls; FNotify: wait_ is false, before notify_one *)
  Inductive fpc := FIdle | FNotify | FOff.
  Record service := Sv { sq : list M; swait : bool; shut : bool; hp : hpc; batch : list M; handled : list M;
    prods : list (M * ppc); dp : dpc; fp : fpc; log_of : list M (* ghost: every record pushed *) }.
  (* after EnableLogging (Logger.cpp:190-194): enabled, an empty queue, handler and flusher run; [ms]: the records to be logged, one call each *)
  Definition enabled (ms : list M) : service := Sv [] true false HOuter [] [] (map (fun m => (m, PCheck)) ms) DIdle FIdle [].

  (* Handler e: [e]: the flush interval has elapsed at the test of the inner loop *)
  Inductive who := Handler (e : bool) | Producer (i : nat) | Disabler | Flusher.
  Definition hset (s : service) (p : hpc) : service := Sv (sq s) (swait s) (shut s) p (batch s) (handled s) (prods s) (dp s) (fp s) (log_of s).
  Definition wakes (p : hpc) : hpc := match p with HSleep => HWake | _ => p end.
  Definition handler (bsize : nat) (e : bool) (s : service) : option service :=
    match hp s with
    | HOuter => Some (hset s (match sq s with [] => HOuter2 | _ => HInner end))
    | HOuter2 => Some (hset s (if shut s then HDone else HInner))
    | HInner => Some (hset s (if (length (batch s) <? bsize) && negb e then HRecv else HSend))
    | HRecv => Some (hset s (match sq s with [] => HRecv2 | _ => HPop end))
    | HRecv2 => Some (hset s (if shut s then HSend else HPop))
    | HPop => Some match sq s with
              | m :: q => Sv q (swait s) (shut s) HInner (batch s ++ [m]) (handled s) (prods s) (dp s) (fp s) (log_of s)
              | [] => if swait s then hset s HBlock else Sv [] true (shut s) HSend (batch s) (handled s) (prods s) (dp s) (fp s) (log_of s)
              end
    | HBlock => Some (hset s HSleep)
    | HSleep => None
    | HWake => Some (hset s HPop)
    | HSend => Some (Sv (sq s) (swait s) (shut s) HOuter [] (handled s ++ batch s) (prods s) (dp s) (fp s) (log_of s))
    | HDone => None
    end.
  (* logger.h:19-25, 57-60, logging_service.h:64-70; the queue is not full *)
  Definition producer (i : nat) (s : service) : option service :=
    match nth_error (prods s) i with
    | Some (m, PCheck) => Some (Sv (sq s) (swait s) (shut s) (hp s) (batch s) (handled s) (upd (prods s) i (m, if shut s then PEnd else PPush)) (dp s) (fp s) (log_of s))
    | Some (m, PPush) => match hp s with
                         | HBlock => None (* the handler holds the lock *)
                         | _ => Some (Sv (sq s ++ [m]) (swait s) (shut s) (hp s) (batch s) (handled s) (upd (prods s) i (m, PNotify)) (dp s) (fp s) (log_of s ++ [m]))
                         end
    | Some (m, PNotify) => Some (Sv (sq s) (swait s) (shut s) (wakes (hp s)) (batch s) (handled s) (upd (prods s) i (m, PEnd)) (dp s) (fp s) (log_of s))
    | _ => None
    end.
  Definition dset (s : service) (p : dpc) : service := Sv (sq s) (swait s) (shut s) (hp s) (batch s) (handled s) (prods s) p (fp s) (log_of s).
  (* logging_service.h:130-157 without a timeout *)
  Definition disabler (s : service) : option service :=
    match dp s with
    | DIdle => Some (dset s DTest)
    | DTest => Some (dset s (if shut s then DEnd else DShut))
    | DShut => Some (Sv (sq s) (swait s) true (hp s) (batch s) (handled s) (prods s) DWake (fp s) (log_of s))
    | DWake => Some (Sv (sq s) false (shut s) (hp s) (batch s) (handled s) (prods s) DNotify (fp s) (log_of s))
    | DNotify => Some (Sv (sq s) (swait s) (shut s) (wakes (hp s)) (batch s) (handled s) (prods s) DJoin (fp s) (log_of s))
    | DJoin => match hp s with HDone => Some (dset s DCancel) | _ => None end
    | DCancel => match fp s with
                 | FIdle => Some (Sv (sq s) (swait s) (shut s) (hp s) (batch s) (handled s) (prods s) DEnd FOff (log_of s))
                 | _ => None (* cancel() joins the flusher's thread, which first ends its call *)
                 end
    | DEnd => None
    end.
  Definition flusher (s : service) : option service :=
    match fp s with
    | FIdle => Some (Sv (sq s) false (shut s) (hp s) (batch s) (handled s) (prods s) (dp s) FNotify (log_of s))
    | FNotify => Some (Sv (sq s) (swait s) (shut s) (wakes (hp s)) (batch s) (handled s) (prods s) (dp s) FIdle (log_of s))
    | FOff => None
    end.
  Definition turn (bsize : nat) (w : who) (s : service) : option service :=
    match w with Handler e => handler bsize e s | Producer i => producer i s | Disabler => disabler s | Flusher => flusher s end.
  Fixpoint turns (bsize : nat) (ws : list who) (s : service) : option service :=
    match ws with
    | [] => Some s
    | w :: ws' => match turn bsize w s with Some s' => turns bsize ws' s' | None => None end
    end.
  (* logging_service.h:90-93 active(), when nobody else runs *)
  Definition active (s : service) : bool := match sq s with [] => negb (shut s) | _ => true end.
  (* Logger.cpp:166-198 EnableLogging after disable(): a new handler is started, or nothing is done *)
  Definition enable_again (s : service) : service :=
    if active s then s else Sv (sq s) (swait s) false HOuter [] (handled s) (prods s) DIdle FIdle (log_of s).
End Service.
Arguments service : clear implicits.
