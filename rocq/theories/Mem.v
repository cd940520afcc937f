(** Output buffers as lists of writes, and the division of a length into chunks. *)
From Verif Require Import Base.

(** ** Writes

    A callback that fills an output array is modelled by the list of writes (index, value) it performs.
    The writes of all threads together may reach memory in any order: theorems quantify over every
    permutation of them. *)

(* one checked write: None is a write outside the buffer *)
Definition zwr {A} (l : list A) (i : Z) (x : A) : option (list A) :=
  if ((0 <=? i) && (i <? Z.of_nat (length l)))%Z then Some (upd l (Z.to_nat i) x) else None.

Fixpoint writes {A} (ws : list (Z * A)) (out : list A) : option (list A) :=
  match ws with
  | [] => Some out
  | (i, x) :: ws' => match zwr out i x with Some out' => writes ws' out' | None => None end
  end.

(* one checked read *)
Definition zrd {A} (l : list A) (i : Z) : option A :=
  if (0 <=? i)%Z then nth_error l (Z.to_nat i) else None.

(** [enum step off l]: the elements of [l] at consecutive positions [off], [off+step], ... *)
Fixpoint enum {A} (step off : Z) (l : list A) : list (Z * A) :=
  match l with [] => [] | x :: t => (off, x) :: enum step (off + step) t end.

(** Writes at byte offsets of a buffer of items of [isz] bytes; a write that does not start at an item
    boundary is an error. *)
Fixpoint item_writes {A} (isz : Z) (ws : list (Z * A)) (out : list A) : option (list A) :=
  match ws with
  | [] => Some out
  | (o, x) :: ws' =>
      if (o mod isz =? 0)%Z then
        match zwr out (o / isz) x with Some out' => item_writes isz ws' out' | None => None end
      else None
  end.

(** ** Chunks *)

(** The blocks (start, length) that a length is divided into; see [chunks_are_blocks]. *)
Definition chunks (c len : nat) : list (nat * nat) :=
  map (fun b => (b * c, Nat.min c (len - b * c))) (seq 0 ((len + (c - 1)) / c)).

(** The calls of a chunk callback: one call per chunk when threaded, else one call for everything.
    MathWorker.h:265-300, DoMultiThreadedChunkWork. *)
Definition chunk_calls (threaded : bool) (c len : nat) : list (nat * nat) :=
  if threaded then chunks c len else [(0, len)].

(** Running sum of the preceding elements. *)
Fixpoint excl (acc : Z) (l : list Z) : list Z :=
  match l with [] => [] | x :: t => acc :: excl (acc + x) t end.

(** ** Schedules

    A schedule decides in which order the writes of the concurrent callbacks reach memory: any
    rearrangement of the list of writes. *)
Definition sched := forall B : Type, list B -> list B.
Definition fair (ord : sched) : Prop := forall B (l : list B), Permutation (ord B l) l.
Definition in_order : sched := fun B l => l.

(** [wrap w v]: the low [w] bits of [v] read as a two's complement number. *)
Definition wrap (w v : Z) : Z :=
  let m := (v mod 2 ^ w)%Z in if (m <? 2 ^ (w - 1))%Z then m else (m - 2 ^ w)%Z.

(* MathThreads.h:148 WORK_ITEM_CHUNK *)
Definition CHUNK : nat := Z.to_nat 0x4000.
