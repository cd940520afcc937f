(** src/Heap.h, src/Ema.cpp RollingQuantile: the quantile of a rolling window, kept in two heaps. No proofs in this file.
    None: undefined behaviour (a null or uninitialised element is used, or an index outside of an array). *)
From Verif Require Import Base.

Notation "'do' X <- A ; B" := (match A with Some X => B | None => None end) (at level 200, X pattern, A at level 100, B at level 200).

(* Heap.h:247-253 *)
Inductive location := InMinHeap | InMaxHeap | InNanList | NotInStructure.
Definition is_loc (a b : location) : bool :=
  match a, b with InMinHeap, InMinHeap | InMaxHeap, InMaxHeap | InNanList, InNanList | NotInStructure, NotInStructure => true | _, _ => false end.

Section Elements.
  Context {T : Type}.
  (* Heap.h:208-228 HeapElement, 255-269 StructureElement; an element is known by its index in all_elements. The value [e_dat] stands
     for the pointer into the input; heapNullIndex and nullptr are None; the list's links are in [nans] below *)
  Record elem := { e_dat : T; e_pos : option nat; e_loc : location; e_next : option nat }.
  (* all_elements; None: not constructed yet *)
  Definition mem : Type := list (option elem).
  Definition get (m : mem) (e : nat) : option elem := match nth_error m e with Some (Some x) => Some x | _ => None end.
  Definition put (m : mem) (e : nat) (x : elem) : option mem := wr m e (Some x).
  Definition set_pos (p : option nat) (x : elem) : elem := {| e_dat := e_dat x; e_pos := p; e_loc := e_loc x; e_next := e_next x |}.
  Definition set_loc (l : location) (x : elem) : elem := {| e_dat := e_dat x; e_pos := e_pos x; e_loc := l; e_next := e_next x |}.
  Definition set_dat (d : T) (x : elem) : elem := {| e_dat := d; e_pos := e_pos x; e_loc := e_loc x; e_next := e_next x |}.
  Definition set_next (n : option nat) (x : elem) : elem := {| e_dat := e_dat x; e_pos := e_pos x; e_loc := e_loc x; e_next := n |}.
  Definition change (f : elem -> elem) (m : mem) (e : nat) : option mem := do x <- get m e; put m e (f x).

  (** ** Heap: [h] holds the first size() entries of _elements *)
  Section Heap.
    Context (less : T -> T -> bool). (* the Compare of the heap: less for the max-heap, greater for the min-heap *)
    Definition heap : Type := (list nat * mem)%type.
    Definition parent (i : nat) : nat := (i - 1) / 2. (* Heap.h:174-177 *)
    Definition left_child (i : nat) : nat := 2 * i + 1. (* Heap.h:179-182 *)
    Definition right_child (i : nat) : nat := 2 * i + 2. (* Heap.h:183-186 *)
    (* Heap.h:230-242 CompareElements *)
    Definition compare (m : mem) (a b : nat) : option bool := do x <- get m a; do y <- get m b; Some (less (e_dat x) (e_dat y)).
    (* Heap.h:188-191 *)
    Definition Compare_elements (s : heap) (i j : nat) : option bool :=
      let (h, m) := s in do a <- nth_error h i; do b <- nth_error h j; compare m a b.
    (* Heap.h:193-196 *)
    Definition NotifyIndexChange (m : mem) (e : nat) (p : option nat) : option mem := change (set_pos p) m e.
    (* Heap.h:198-205 *)
    Definition Swap_elements (i j : nat) (s : heap) : option heap :=
      let (h, m) := s in
      do a <- nth_error h i; do b <- nth_error h j;
      do m1 <- NotifyIndexChange m b (Some i); do m2 <- NotifyIndexChange m1 a (Some j);
      Some (upd (upd h i b) j a, m2).
    (* Heap.h:146-154; the index gets smaller in every turn *)
    Fixpoint SiftUp (fuel i : nat) (s : heap) : option heap :=
      match fuel with
      | O => None
      | S f => if i =? 0 then Some s
               else do c <- Compare_elements s (parent i) i;
                    if c then do s' <- Swap_elements (parent i) i s; SiftUp f (parent i) s' else Some s
      end.
    (* Heap.h:156-172; the index gets larger in every turn *)
    Fixpoint SiftDown (fuel i : nat) (s : heap) : option heap :=
      match fuel with
      | O => None
      | S f => if right_child i <=? length (fst s) then
                 do k <- (if right_child i <? length (fst s) then
                            do c <- Compare_elements s (left_child i) (right_child i); Some (if c then right_child i else left_child i)
                          else Some (left_child i));
                 do c <- Compare_elements s k i;
                 if c then Some s else do s' <- Swap_elements i k s; SiftDown f k s'
               else Some s
      end.
    (* SiftDown(index); SiftUp(index), Heap.h:95-96, 116-117 *)
    Definition sift (i : nat) (s : heap) : option heap := do s' <- SiftDown (S (length (fst s))) i s; SiftUp (S i) i s'.
    (* Heap.h:56-68; a full heap is left as it is *)
    Definition Push (max_size e : nat) (s : heap) : option heap :=
      let (h, m) := s in
      if max_size <=? length h then Some s
      else do m' <- NotifyIndexChange m e (Some (length h)); SiftUp (S (length h)) (length h) (h ++ [e], m').
    (* Heap.h:70-80 *)
    Definition PopBack (s : heap) : option heap :=
      let (h, m) := s in
      match h with
      | [] => Some s
      | _ => do e <- nth_error h (length h - 1); do m' <- NotifyIndexChange m e None; Some (firstn (length h - 1) h, m')
      end.
    (* Heap.h:82-98 *)
    Definition Erase (index : option nat) (s : heap) : option heap :=
      match index with
      | None => Some s
      | Some i => do s1 <- Swap_elements i (length (fst s) - 1) s; do s2 <- PopBack s1;
                  if i <? length (fst s2) then sift i s2 else Some s2
      end.
    (* Heap.h:108-118 *)
    Definition ApplyElementChange (index : option nat) (s : heap) : option heap :=
      match index with None => Some s | Some i => sift i s end.
  End Heap.

  (** ** RollingQuantile *)
  Section Quantile.
    Context {U : Type} (less : T -> T -> bool) (valid : T -> bool) (uinv : U) (conv : T -> U) (split : T -> T -> U).
    Context (index : nat -> nat) (integral : nat -> bool). (* QuantileIndex, QuantileIndexIsIntegral *)
    Context (window_size max_heap_size min_heap_size : nat).
    Definition greater (a b : T) : bool := less b a.
    (* Heap.h:379-400: [nans] is nan_list, Heap.h:271-354 *)
    Record rq := { elems : mem; maxh : list nat; minh : list nat; nans : list nat; oldest : option nat; newest : option nat }.
    Definition rq_init : rq :=
      {| elems := repeat None window_size; maxh := []; minh := []; nans := []; oldest := None; newest := None |}.
    Definition set_elems (m : mem) (s : rq) : rq :=
      {| elems := m; maxh := maxh s; minh := minh s; nans := nans s; oldest := oldest s; newest := newest s |}.
    Definition set_max (p : heap) (s : rq) : rq :=
      {| elems := snd p; maxh := fst p; minh := minh s; nans := nans s; oldest := oldest s; newest := newest s |}.
    Definition set_min (p : heap) (s : rq) : rq :=
      {| elems := snd p; maxh := maxh s; minh := fst p; nans := nans s; oldest := oldest s; newest := newest s |}.
    Definition set_nans (l : list nat) (s : rq) : rq :=
      {| elems := elems s; maxh := maxh s; minh := minh s; nans := l; oldest := oldest s; newest := newest s |}.
    Definition set_ends (o n : option nat) (s : rq) : rq :=
      {| elems := elems s; maxh := maxh s; minh := minh s; nans := nans s; oldest := o; newest := n |}.
    Definition relocate (l : location) (e : nat) (s : rq) : option rq := do m <- change (set_loc l) (elems s) e; Some (set_elems m s).

    Definition total_non_nan_elements (s : rq) : nat := length (minh s) + length (maxh s). (* Heap.h:496-499 *)
    Definition total_elements (s : rq) : nat := total_non_nan_elements s + length (nans s). (* Heap.h:506-509 *)
    (* Heap.h:445-465; min_count is 1 (Ema.cpp:312) *)
    Definition GetQuantile (s : rq) : option U :=
      let n := total_non_nan_elements s in
      if n <? 1 then Some uinv
      else do a <- hd_error (maxh s); do x <- get (elems s) a;
           if integral n then Some (conv (e_dat x))
           else do b <- hd_error (minh s); do y <- get (elems s) b; Some (split (e_dat x) (e_dat y)).
    (* Heap.h:467-478 *)
    Definition PossiblySwapHeapHeads (s : rq) : option rq :=
      match minh s, maxh s with
      | b :: mins, a :: maxs =>
          do c <- compare less (elems s) b a;
          if c then
            do m1 <- change (set_loc InMinHeap) (elems s) a;
            do m2 <- change (set_loc InMaxHeap) m1 b;
            do p <- ApplyElementChange greater (Some 0) (a :: mins, m2);
            do q <- ApplyElementChange less (Some 0) (b :: maxs, snd p);
            Some (set_max q (set_min p s))
          else Some s
      | _, _ => Some s
      end.
    (* Heap.h:480-494 *)
    Definition ApplyChangeInCorrespondingHeap (e : nat) (s : rq) : option rq :=
      do x <- get (elems s) e;
      match e_loc x with
      | InMinHeap => do p <- ApplyElementChange greater (e_pos x) (minh s, elems s); Some (set_min p s)
      | InMaxHeap => do p <- ApplyElementChange less (e_pos x) (maxh s, elems s); Some (set_max p s)
      | _ => Some s
      end.
    (* Heap.h:616-631 *)
    Definition EraseFromCorrespondingHeap (e : nat) (s : rq) : option rq :=
      do x <- get (elems s) e;
      do s' <- match e_loc x with
               | InMinHeap => do p <- Erase greater (e_pos x) (minh s, elems s); Some (set_min p s)
               | InMaxHeap => do p <- Erase less (e_pos x) (maxh s, elems s); Some (set_max p s)
               | _ => Some s
               end;
      relocate NotInStructure e s'.
    (* Heap.h:657-661, 663-667 *)
    Definition PushToMaxHeap (e : nat) (s : rq) : option rq :=
      do p <- Push less max_heap_size e (maxh s, elems s); relocate InMaxHeap e (set_max p s).
    Definition PushToMinHeap (e : nat) (s : rq) : option rq :=
      do p <- Push greater min_heap_size e (minh s, elems s); relocate InMinHeap e (set_min p s).
    (* Heap.h:669-672, 316-328 *)
    Definition PushToNanList (e : nat) (s : rq) : option rq := relocate InNanList e (set_nans (nans s ++ [e]) s).
    (* Heap.h:633-638, 330-348; an element that is not in the list has no neighbours *)
    Definition EraseFromNanList (e : nat) (s : rq) : option rq :=
      if existsb (Nat.eqb e) (nans s) then relocate NotInStructure e (set_nans (filter (fun x => negb (x =? e)) (nans s)) s) else None.
    (* Heap.h:640-655 *)
    Definition PushToCorrectHeap (e : nat) (s : rq) : option rq :=
      let quantile_index := index (total_non_nan_elements s + 1) in
      do s' <- (if quantile_index <? length (maxh s) then PushToMinHeap e s else PushToMaxHeap e s);
      PossiblySwapHeapHeads s'.
    (* Heap.h:590-614 *)
    Definition RebalanceHeaps (s : rq) : option rq :=
      if total_non_nan_elements s =? 0 then Some s
      else
        let quantile_index := index (total_non_nan_elements s) in
        if quantile_index + 1 <? length (maxh s) then
          do e <- hd_error (maxh s); do s' <- EraseFromCorrespondingHeap e s; PushToMinHeap e s'
        else if length (maxh s) <? quantile_index + 1 then
          do e <- hd_error (minh s); do s' <- EraseFromCorrespondingHeap e s; PushToMaxHeap e s'
        else Some s.
    (* Heap.h:523-549 *)
    Definition NanUpdateNotFull (d : T) (s : rq) : option (U * rq) :=
      let e := total_elements s in
      do m <- put (elems s) e {| e_dat := d; e_pos := None; e_loc := NotInStructure; e_next := None |};
      do s1 <- (if e =? 0 then Some (set_ends (Some e) (Some e) (set_elems m s))
                else do n <- newest s; do m' <- change (set_next (Some e)) m n; Some (set_ends (oldest s) (Some e) (set_elems m' s)));
      do s2 <- (if valid d then PushToCorrectHeap e s1 else PushToNanList e s1);
      do u <- GetQuantile s2; Some (u, s2).
    (* Heap.h:551-588 *)
    Definition NanUpdateFull (d : T) (s : rq) : option (U * rq) :=
      do e <- oldest s; do x <- get (elems s) e;
      let old_is_nan := is_loc (e_loc x) InNanList in
      do m <- change (set_dat d) (elems s) e;
      do n <- newest s; do m' <- change (set_next (Some e)) m n;
      let s1 := set_ends (e_next x) (Some e) (set_elems m' s) in
      do s2 <- match old_is_nan, negb (valid d) with
               | false, false => do s2 <- ApplyChangeInCorrespondingHeap e s1; PossiblySwapHeapHeads s2
               | true, false => do s2 <- EraseFromNanList e s1; PushToCorrectHeap e s2
               | false, true => do s2 <- EraseFromCorrespondingHeap e s1; do s3 <- PushToNanList e s2; RebalanceHeaps s3
               | true, true => Some s1
               end;
      do u <- GetQuantile s2; Some (u, s2).
    (* Heap.h:511-521 *)
    Definition Update (d : T) (s : rq) : option (U * rq) :=
      if total_elements s <? window_size then NanUpdateNotFull d s else NanUpdateFull d s.
    (* Ema.cpp:317-320: the output and the structure at the end *)
    Fixpoint updates (l : list T) (s : rq) : option (list U * rq) :=
      match l with
      | [] => Some ([], s)
      | d :: l' => do (u, s') <- Update d s; do (us, s'') <- updates l' s'; Some (u :: us, s'')
      end.
  End Quantile.
End Elements.
Arguments elem : clear implicits.
Arguments mem : clear implicits.

Local Open Scope Z_scope.
(* Ema.cpp:267 *)
Definition MULT : Z := 1000000000.
(** Heap.h:356-376, 427-443: index and its fractional part, in exact arithmetic; the code computes both in long double.
    [k] is the quantile times 10^9 *)
Definition FractionalIndex (k : Z) (n : nat) : Z := (Z.of_nat n - 1) * k.
Definition IntegralIndex (k : Z) (n : nat) : nat :=
  let x := FractionalIndex k n in
  Z.to_nat (if MULT - MULT / 1000 <? x mod MULT then x / MULT + 1 else x / MULT).
Definition IndexIsIntegral (k : Z) (n : nat) : bool :=
  let f := FractionalIndex k n mod MULT in (f <? MULT / 1000) || (MULT - MULT / 1000 <? f).
Inductive qresult (U : Type) := QOk (l : list U) | QError | QUndefined.
Arguments QOk {U}. Arguments QError {U}. Arguments QUndefined {U}.
(* Ema.cpp:262-325; [param] holds the quantile and the window *)
Definition RollingQuantile {T U} (less : T -> T -> bool) (valid : T -> bool) (uinv : U) (conv : T -> U) (split : T -> T -> U) (param : Z) (l : list T) : qresult U :=
  let k := Z.rem param (MULT + 1) in
  let w := Z.quot param (MULT + 1) in
  if w <=? 0 then QError
  else if w =? 1 then QOk (map (fun x => if valid x then conv x else uinv) l)
  else
    let W := Z.to_nat w in
    let max_heap_size := (IntegralIndex k W + 1)%nat in
    match updates less valid uinv conv split (IntegralIndex k) (IndexIsIntegral k) W max_heap_size (W - max_heap_size) l (rq_init W) with
    | Some (us, _) => QOk us
    | None => QUndefined
    end.
