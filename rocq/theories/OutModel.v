(** The output array of an operation on two operands, and arrays with several dimensions: src/BasicMath.cpp.  No proofs in this file. *)
From Verif Require Import Base Mem.
Local Open Scope Z_scope.

(** * Overlapping memory *)

(* the memory of an array: address, item size, number of items *)
Record view := View { base : Z; isz : Z; cnt : nat }.
Definition after (v : view) : Z := base v + isz v * Z.of_nat (cnt v).
(* an operand: a value in a 256-bit register, or an array *)
Inductive operand := Reg (bytes : list Z) | Ram (v : view).

(* BasicMath.cpp:2867-2880, 2885-2898: [true]: overlap *)
Definition overlap (out i : view) : bool :=
  (0 <? Z.of_nat (cnt i))
  && ((base out <? base i) && (base i <? after out) || (base out <? after i) && (after i <? after out)).
(* BasicMath.cpp:2826-2905 CheckOutputs for an output array of the right type, with one dimension and not strided: [true]: it is used.
   The scalars of Python have len 0 and are not tested; a scalar from an array with one item is not tested here (its address is
   that of the register) *)
Definition CheckOutputs (out : view) (a b : operand) : bool :=
  let long o := match o with Ram i => (cnt i <=? cnt out)%nat | Reg _ => true end in
  let safe o := match o with Ram i => negb (overlap out i) | Reg _ => true end in
  long a && long b && (safe a && safe b).

(* memory: a byte at each address *)
Definition memory := Z -> Z.
Definition bytes_at (m : memory) (a : Z) (n : Z) : list Z := map (fun k => m (a + Z.of_nat k)) (seq 0 (Z.to_nat n)).
Definition write (m : memory) (a : Z) (l : list Z) : memory :=
  fun x => match zrd l (x - a) with Some v => v | None => m x end.
Definition item (m : memory) (o : operand) (i : nat) : list Z :=
  match o with Reg l => l | Ram v => bytes_at m (base v + isz v * Z.of_nat i) (isz v) end.

(* the kernels load a few items of both operands, then store the results (BasicMath.cpp:618-1174): items [s] .. [s + l - 1] *)
Definition chunk := (nat * nat)%type.
Definition items (c : chunk) : list nat := seq (fst c) (snd c).
Inductive event := Load (c : chunk) | Store (c : chunk).
Definition chunk_eqb (c d : chunk) : bool := ((fst c =? fst d) && (snd c =? snd d))%nat.
Definition regs := list (chunk * list (list Z)).
Fixpoint held (r : regs) (c : chunk) : list (list Z) :=
  match r with (d, l) :: r => if chunk_eqb c d then l else held r c | [] => [] end.
(* the items of the output are stored one after another from the first one *)
Definition step (f : list Z -> list Z -> list Z) (out : view) (a b : operand) (s : memory * regs) (e : event) : memory * regs :=
  let (m, r) := s in
  match e with
  | Load c => (m, (c, map (fun i => f (item m a i) (item m b i)) (items c)) :: r)
  | Store c => (fold_left (fun m p => write m (base out + isz out * Z.of_nat (fst p)) (snd p)) (combine (items c) (held r c)) m, r)
  end.
Definition run f out a b (m : memory) (es : list event) : memory := fst (fold_left (step f out a b) es (m, [])).

(** * Several dimensions *)

(* address, item size, dimensions and strides *)
Record nd := ND { nbase : Z; nsize : Z; dims : list nat; strides : list Z }.
Definition len (a : nd) : nat := fold_right Nat.mul 1%nat (dims a).
(* the flags of numpy: the strides of dimensions of at most one item do not matter *)
Fixpoint contig (d : list nat) (s : list Z) (unit : Z) : bool :=
  match d, s with
  | n :: d, t :: s => ((n <=? 1)%nat || (t =? unit)) && contig d s (unit * Z.of_nat n)
  | _, _ => true
  end.
Definition f_contig (a : nd) : bool := (len a =? 0)%nat || contig (dims a) (strides a) (nsize a).
Definition c_contig (a : nd) : bool := (len a =? 0)%nat || contig (rev (dims a)) (rev (strides a)) (nsize a).

(* BasicMath.cpp:2588-2593, 2649-2654: only the first stride is tested *)
Definition first_stride (a : nd) : bool :=
  match dims a, strides a with d :: _, s :: _ => (d <=? 1)%nat || (nsize a =? s) | _, _ => true end.

(* the position in memory order of the item with this index *)
Fixpoint flat (d : list nat) (idx : list nat) : nat :=
  match d, idx with n :: d, i :: idx => i + n * flat d idx | _, _ => 0 end.
Definition position (fortran : bool) (d idx : list nat) : nat := if fortran then flat d idx else flat (rev d) (rev idx).
(* the item of an array *)
Fixpoint offset (s : list Z) (idx : list nat) : Z :=
  match s, idx with t :: s, i :: idx => t * Z.of_nat i + offset s idx | _, _ => 0 end.
Definition at_index (m : Z -> Z) (a : nd) (idx : list nat) : Z := m (nbase a + offset (strides a) idx).

(* the result: dimensions, order, items in memory order *)
Record res := Res { rdims : list nat; rfortran : bool; ritems : list Z }.
Definition result_at (r : res) (idx : list nat) : option Z := nth_error (ritems r) (position (rfortran r) (rdims r) idx).

(* BasicMath.cpp:2645-2788, 2909-2944, 3452-3470, two arrays of the same type with the same number of items, or one of them with a single
   item; [m] gives the item at an address.  [None]: left to numpy *)
Definition TwoArrays (f : Z -> Z -> Z) (m : Z -> Z) (a b : nd) : option res :=
  if negb (first_stride a && first_stride b) then None
  else
    let n := Nat.max (len a) (len b) in
    let ia i := m (nbase a + nsize a * Z.of_nat (if (len a =? 1)%nat then 0%nat else i)) in
    let ib i := m (nbase b + nsize b * Z.of_nat (if (len b =? 1)%nat then 0%nat else i)) in
    let main := if (len b <=? len a)%nat then a else b in
    if (len a =? len b)%nat || (len a =? 1)%nat && (1 <=? len b)%nat || (len b =? 1)%nat && (1 <=? len a)%nat
    then Some (Res (if (n =? 0)%nat then [0%nat] else dims main) ((1 <? length (dims main))%nat && f_contig a && f_contig b) (map (fun i => f (ia i) (ib i)) (seq 0 n)))
    else None.
