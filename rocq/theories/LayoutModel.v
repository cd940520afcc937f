(** src/RipTide.cpp GetStridesAndContig, src/Convert.cpp ConvertSafe and ConvertUnsafe: arrays of several dimensions. No proofs in this file. *)
From Verif Require Import Base Mem.
Local Open Scope Z_scope.

(** a numpy array's shape, its strides in bytes and the size of an item *)
Record layout := { dims : list nat; strides : list Z; isz : Z }.
Definition prod (l : list nat) : nat := fold_right Nat.mul 1%nat l.

(** ** GetStridesAndContig *)

(* RipTide.cpp:2337-2345: from the last dimension backwards; [k] is currentdim *)
Fixpoint c_loop (l : layout) (k : nat) (cur : Z) : nat :=
  match k with
  | O => O
  | S k' => let cur' := cur * Z.of_nat (nth k (dims l) 0%nat) in if nth k' (strides l) 0 =? cur' then c_loop l k' cur' else k
  end.
(* RipTide.cpp:2354-2362: from the first dimension onwards; [n] dimensions are left after [k] *)
Fixpoint f_loop (l : layout) (n k : nat) (cur : Z) : nat :=
  match n with
  | O => k
  | S n' => let cur' := cur * Z.of_nat (nth k (dims l) 0%nat) in if nth (S k) (strides l) 0 =? cur' then f_loop l n' (S k) cur' else k
  end.
(* RipTide.cpp:2310-2371: direction and stride *)
Definition GetStridesAndContig (l : layout) : Z * Z :=
  let n := length (dims l) in
  if (n =? 0)%nat then (0, isz l)
  else
    let stride := if (1 <? nth 0 (dims l) 0)%nat then nth 0 (strides l) 0 else isz l in
    if (1 <? n)%nat then
      let last := if (1 <? nth (n - 1) (dims l) 0)%nat then nth (n - 1) (strides l) 0 else isz l in
      if last =? stride then (0, stride)
      else if Z.abs last <? Z.abs stride then (Z.of_nat (c_loop l (n - 1) last), last)
      else (Z.of_nat (f_loop l (n - 1) 0 stride) - Z.of_nat (n - 1), stride)
    else (0, stride).

(** ** New arrays *)

(* numpy: the strides of a new array *)
Fixpoint cstrides (s : Z) (ds : list nat) : list Z :=
  match ds with [] => [] | d :: ds' => s * Z.of_nat (prod ds') :: cstrides s ds' end.
Fixpoint fstrides (s : Z) (ds : list nat) : list Z :=
  match ds with [] => [] | d :: ds' => s :: fstrides (s * Z.of_nat d) ds' end.
(* numpy: the F_CONTIGUOUS flag of a non-empty array; dimensions of length 1 do not matter *)
Fixpoint f_flag (s : Z) (ds : list nat) (ss : list Z) : bool :=
  match ds, ss with
  | d :: ds', x :: ss' => if (d =? 1)%nat then f_flag s ds' ss' else (x =? s) && f_flag (s * Z.of_nat d) ds' ss'
  | _, _ => true
  end.
(* RipTide.cpp:597-711 AllocateNumpyArray with a flag for Fortran order *)
Definition new_array (fortran : bool) (ds : list nat) (size : Z) : layout :=
  {| dims := ds; strides := if fortran then fstrides size ds else cstrides size ds; isz := size |}.

(** ** ConvertSafe, ConvertUnsafe *)

(* one call of the conversion function: the items converted, as pairs of byte offsets (output, input) *)
Definition call (inOff outOff strideIn strideOut : Z) (len : nat) : list (Z * Z) :=
  map (fun i => (outOff + Z.of_nat i * strideOut, inOff + Z.of_nat i * strideIn)) (seq 0 len).
(* Convert.cpp:995-1022 ConvertThreadCallback, 1163-1195: one stride for all items, divided over the threads *)
Definition flat_calls (threaded : bool) (len : nat) (strideIn strideOut : Z) : list (Z * Z) :=
  concat (map (fun c : nat * nat => call (Z.of_nat (fst c) * strideIn) (Z.of_nat (fst c) * strideOut) strideIn strideOut (snd c)) (chunk_calls threaded CHUNK len)).
(** An output of [len] items, each the byte offset of the input item it was converted from; None inside: never written.
    [NumPy]: numpy converts; [Overrun]: a write outside of the output. *)
Inductive outcome := Filled (o : list (option Z)) | NumPy | Overrun.
Definition fill (size : Z) (len : nat) (calls : list (Z * Z)) : outcome :=
  match item_writes size (map (fun p : Z * Z => (fst p, Some (snd p))) calls) (repeat None len) with Some o => Filled o | None => Overrun end.
(* Convert.cpp:1049-1198: [osize] is the item size of the output *)
Definition ConvertSafe (ord : sched) (threaded : bool) (l : layout) (osize : Z) : outcome :=
  let len := prod (dims l) in
  let out := new_array (f_flag (isz l) (dims l) (strides l)) (dims l) osize in
  let '(dirIn, strideIn) := GetStridesAndContig l in
  let '(dirOut, strideOut) := GetStridesAndContig out in
  let n := length (dims l) in
  if (dirIn =? 0) && (dirOut =? 0) then fill osize len (ord _ (flat_calls threaded len strideIn strideOut))
  else if (dirIn =? 1) && (dirOut =? 0) then
    let inner := prod (skipn 1 (dims l)) in
    fill osize len (concat (map (fun j => call (Z.of_nat j * nth 0 (strides l) 0) (Z.of_nat j * Z.of_nat inner * strideOut) strideIn strideOut inner) (seq 0 (nth 0 (dims l) 0%nat))))
  else if (dirIn =? -1) && (dirOut =? 0) then
    let inner := nth 0 (dims l) 0%nat in
    fill osize len (concat (map (fun j => call (Z.of_nat j * nth (n - 1) (strides l) 0) (Z.of_nat j * Z.of_nat inner * strideOut) strideIn strideOut inner) (seq 0 (nth (n - 1) (dims l) 0%nat))))
  else NumPy.
(* Convert.cpp:1252-1328: the first strides for everything; arrays of at least one dimension *)
Definition ConvertUnsafe (ord : sched) (threaded : bool) (l : layout) (osize : Z) : outcome :=
  let len := prod (dims l) in
  let out := new_array (f_flag (isz l) (dims l) (strides l)) (dims l) osize in
  fill osize len (ord _ (flat_calls threaded len (nth 0 (strides l) 0) (nth 0 (strides out) 0))).
