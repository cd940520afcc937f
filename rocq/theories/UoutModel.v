(** The arrays of operations on one array: src/UnaryOps.cpp ProcessOneInput.  No proofs in this file.
    Memory is a map from the address of an item to its value; items of the input and the output that overlap only in part are not
    modelled. *)
From Verif Require Import Base Mem LayoutModel.
Local Open Scope Z_scope.

(* the calls of the function, as pairs of byte offsets (output, input), in the order in which they take effect.
   UnaryOps.cpp:2615-2696.  [None]: left to numpy *)
Definition unary_calls (ord : sched) (threaded : bool) (l out : layout) : option (list (Z * Z)) :=
  let len := prod (dims l) in
  let '(dirIn, strideIn) := GetStridesAndContig l in
  let '(dirOut, strideOut) := GetStridesAndContig out in
  let n := length (dims l) in
  if (dirIn =? 0) && (dirOut =? 0) then Some (ord _ (flat_calls threaded len strideIn strideOut))
  else if (dirIn =? 1) && (dirOut =? 0) then
    let inner := prod (skipn 1 (dims l)) in
    Some (concat (map (fun j => call (Z.of_nat j * nth 0 (strides l) 0) (Z.of_nat j * Z.of_nat inner * strideOut) strideIn strideOut inner) (seq 0 (nth 0 (dims l) 0%nat))))
  else if (dirIn =? -1) && (dirOut =? 0) then
    let inner := nth 0 (dims l) 0%nat in
    Some (concat (map (fun j => call (Z.of_nat j * nth (n - 1) (strides l) 0) (Z.of_nat j * Z.of_nat inner * strideOut) strideIn strideOut inner) (seq 0 (nth (n - 1) (dims l) 0%nat))))
  else None.
(* UnaryOps.cpp:2484-2542, 2571-2581: a new array; the shape of the result and the items *)
Definition UnaryNew (ord : sched) (threaded : bool) (l : layout) (osize : Z) : list nat * outcome :=
  let len := prod (dims l) in
  let '(dirIn, strideIn) := GetStridesAndContig l in
  let out := new_array (f_flag (isz l) (dims l) (strides l)) (dims l) osize in
  if dirIn =? 0 then
    ((if (length (dims l) <=? 1)%nat then [len] else dims l), fill osize len (ord _ (flat_calls threaded len strideIn osize)))
  else (dims l, match unary_calls ord threaded l out with Some c => fill osize len c | None => NumPy end).
(* UnaryOps.cpp:2582-2605: an array is given for the result.  [a] and [b] are the addresses of the first items, [f] is the operation.
   [None]: left to numpy *)
Definition step {V} (f : V -> V) (a b : Z) (m : Z -> V) (c : Z * Z) : Z -> V :=
  fun x => if x =? b + fst c then f (m (a + snd c)) else m x.
Definition UnaryOut {V} (ord : sched) (threaded : bool) (f : V -> V) (l : layout) (a : Z) (out : layout) (b : Z) (m : Z -> V) : option (Z -> V) :=
  if (prod (dims l) =? prod (dims out))%nat then option_map (fun cs => fold_left (step f a b) cs m) (unary_calls ord threaded l out) else None.
