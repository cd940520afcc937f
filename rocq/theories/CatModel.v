(** src/BasicMath.cpp: adding arrays of strings. No proofs in this file.

    The memory of an array is a list of cells from its first item on: bytes, or characters of 4 bytes for type 19. New memory holds
    any cells ([junk]). Allocations succeed. Simplified: both operands scalars, and objects that are neither arrays nor scalars, are
    left out; numbers are only told apart from strings. *)
From Verif Require Import Base LstModel.
Local Open Scope Z_scope.

(** type number (18 bytes, 19 unicode, less: numbers), cells of an item, dimensions, distances in cells, and the cells *)
Record sarr := SArr { s_type : Z; s_item : nat; s_dims : list Z; s_strides : list Z; s_mem : list Z }.
Inductive sscalar := SBytes (s : list Z) | SStr (s : list Z) | SNum.
Inductive operands := AA (a b : sarr) | AS (a : sarr) (s : sscalar) | SA (s : sscalar) (a : sarr).
(** [Punt]: None, Python asks numpy; [Numeric]: on to arithmetic of numbers; [Punned]: the same, with the address of a string as that of a
    number; [NewArr]: type, cells of an item, length, cells *)
Inductive added := NewArr (t : Z) (item : nat) (n : Z) (d : list Z) | Punts | Numeric | Punned | Wild.

Definition is_str (t : Z) : bool := (t =? 18) || (t =? 19).
(* BasicMath.cpp:2571 and 2641: false if the items of the first dimension do not follow each other *)
Definition strides_ok (a : sarr) : bool :=
  match s_dims a, s_strides a with d :: _, s :: _ => negb ((1 <? d) && negb (Z.of_nat (s_item a) =? s)) | _, _ => true end.
Definition count (a : sarr) : Z := fold_left Z.mul (s_dims a) 1.

(* BasicMath.cpp:2212-2219: the type a scalar asks for *)
Definition scalar_type (s : sscalar) (t : Z) : Z := match s with SBytes _ => 18 | SStr _ => 19 | SNum => t end.
Fixpoint to_bytes (l : list Z) : list Z := match l with [] => [] | c :: r => [c mod 256; (c / 256) mod 256; (c / 65536) mod 256; c / 16777216] ++ to_bytes r end.
Fixpoint to_cells (l : list Z) : list Z := match l with a :: b :: c :: d :: r => a + 256 * b + 65536 * c + 16777216 * d :: to_cells r | _ => [] end.
(* RipTide.cpp:1282-1302 ConvertScalarObject of strings, as cells of an array of type [t] *)
Definition scalar_cells (s : sscalar) (t : Z) : option (list Z) :=
  match s with
  | SBytes x => Some (if t =? 19 then to_cells x else x)
  | SStr x => Some (if t =? 19 then x else to_bytes x)
  | SNum => None
  end.

(** copy from [p] until a zero or the end of the item *)
Fixpoint text (m : list Z) (p w : nat) : option (list Z) :=
  match w with
  | O => Some []
  | S k => match nth_error m p with
           | None => None
           | Some c => if c =? 0 then Some [] else option_map (cons c) (text m (S p) k)
           end
  end.
(* BasicMath.cpp:3139-3162, 3165-3187, 3190-3212: one item; [f1], [f2]: 0 for a scalar *)
Definition cat_one (m1 m2 : list Z) (w1 w2 f1 f2 i : nat) : option (list Z) :=
  obind (text m1 (f1 * (w1 * i)) w1) (fun x => obind (text m2 (f2 * (w2 * i)) w2) (fun y => Some (x ++ y ++ repeat 0 (w1 + w2 - (length x + length y))))).
Fixpoint cat_rows (m1 m2 : list Z) (w1 w2 f1 f2 : nat) (is : list nat) : option (list Z) :=
  match is with [] => Some [] | i :: r => obind (cat_one m1 m2 w1 w2 f1 f2 i) (fun x => obind (cat_rows m1 m2 w1 w2 f1 f2 r) (fun t => Some (x ++ t))) end.
(* BasicMath.cpp:3124-3217 ConcatTwoStrings and 3222-3319 ConcatTwoUnicodes. RipTide.cpp:664-690: items of no cells get one byte, of which only the first
   is written *)
Definition Concat (junk : nat -> Z) (t : Z) (m1 m2 : list Z) (w1 w2 f1 f2 : nat) (n : Z) : added :=
  match cat_rows m1 m2 w1 w2 f1 f2 (seq 0 (Z.to_nat n)) with
  | None => Wild
  | Some d => if (w1 + w2 =? 0)%nat then NewArr t 1 n (if n <=? 0 then [] else 0 :: map junk (seq 1 (Z.to_nat n - 1))) else NewArr t (w1 + w2) n d
  end.

(* BasicMath.cpp:2442-2779 CheckInputsInternal and 3324-3363 PossiblyAddUnicode; [out]: an output array is given *)
Definition Add (junk : nat -> Z) (out : bool) (o : operands) : added :=
  let with_scalar a s first :=
    if negb out && negb (scalar_type s (s_type a) =? s_type a) then Punts
    else if negb (strides_ok a) then Punts
    else match scalar_cells s (s_type a) with
         | None => if is_str (s_type a) then Punts else Numeric
         | Some x => if negb (is_str (s_type a)) then Punned
                     else if first : bool then Concat junk (s_type a) x (s_mem a) (length x) (s_item a) 0 1 (count a)
                     else Concat junk (s_type a) (s_mem a) x (s_item a) (length x) 1 0 (count a)
         end in
  match o with
  | AS a s => with_scalar a s false
  | SA s a => with_scalar a s true
  | AA a b =>
      if negb (strides_ok a && strides_ok b) then Punts
      else if negb (is_str (s_type a) || is_str (s_type b)) then Numeric
      else if negb (count a =? count b) then Punts
      else if negb (s_type a =? s_type b) then Punts
      else Concat junk (s_type a) (s_mem a) (s_mem b) (s_item a) (s_item b) 1 1 (count a)
  end.
