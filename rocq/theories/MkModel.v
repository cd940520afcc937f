(** Model of MultiKeyGroupBy32, MultiKeyGroupBy32Super, MultiKeyUnique32 and MultiKeyHash of /repo/src/MultiKey.cpp from their arguments to their
    results: the columns, the hint, the filter, the hash mode and the keyword cutoffs, the rows made of the columns and the choice of the hash function.
    The hash tables are those of HashModel, the arrays those of EaModel; an element of a column is the list of its bytes.
    Simplified: the first argument is a list and the second an integer; arrays have one dimension; strides are multiples of the item size; memory can
    always be had; an integer that does not fit (hint below 0 or from 2^63 on, hash mode other than 1 and 2) counts as undefined.
    A call with an error that returns None counts as an error.  No proofs in this file. *)
From Verif Require Import Base Mem AllModel EaModel.
From Verif Require BnModel HashModel LxModel.
Local Open Scope Z_scope.

(* None, an array with items of [size] bytes, or another object *)
Inductive key_column := KNone | KArray (size : Z) (a : arg (list Z)) | KOther.
(* MultiKey.h:6-29: is there an object, its type, the bytes of an item, the items *)
Record key_info := { i_object : bool; i_dtype : Z; i_size : Z; i_items : list (list Z) }.
(* RipTide.cpp:188-196 *)
Definition known_type (d : Z) : bool := (0 <=? d) && (d <=? 20).
(* MultiKey.cpp:198-296 *)
Definition read_column (c : key_column) : outcome key_info :=
  match c with
  | KNone => Done {| i_object := false; i_dtype := 0; i_size := 0; i_items := [] |}
  | KArray size a =>
      if known_type (a_dtype a)
      then obind (BnModel.mlp_read a) (fun l => Done {| i_object := true; i_dtype := a_dtype a; i_size := size; i_items := l |})
      else Error
  | KOther => Error
  end.

(* the rows, their bytes, the type of a single column or -1, the filter, whether the first column is an array *)
Record prepared := { p_rows : list (list Z); p_width : Z; p_core : Z; p_filter : option (list bool); p_object : bool }.
(* MultiKey.cpp:374-400 and 429-440: the filter.  Its elements are read one after the other whatever its stride.  POther: an object that NumPy makes no
   array of; other objects stand for the array that it makes *)
Definition read_filter (n : Z) (filter : param bool) : outcome (option (list bool)) :=
  match filter with
  | PNone => Done None
  | PArray a => if (a_dtype a =? 0) && (a_len a =? n) then obind (undef (read_arg a)) (fun f => Done (Some f)) else Error
  | POther => Error
  end.
(* MultiKey.cpp:299-314, 345-465 CMultiKeyPrepare.  aInfo[0] is read whether or not there is a column (416) *)
Definition prepare (cols : list key_column) (filter : param bool) : outcome prepared :=
  match filter with POther => Error | _ =>
  obind (each read_column cols) (fun infos =>
  match infos with
  | [] => Undefined
  | first :: rest =>
      let n := length (i_items first) in
      if negb (forallb (fun i => Nat.eqb (length (i_items i)) n) rest) then Error
      else obind (read_filter (Z.of_nat n) filter) (fun f =>
           match rest with
           | [] => if i_object first
                   then Done {| p_rows := i_items first; p_width := i_size first; p_core := i_dtype first; p_filter := f; p_object := true |}
                   else Undefined
           | _ => obind (undef (HashModel.RotateArrays (map i_items infos) n)) (fun rows =>
                  Done {| p_rows := rows; p_width := fold_right Z.add 0 (map i_size infos); p_core := -1; p_filter := f; p_object := i_object first |})
           end)
  end)
  end.
(* MultiKey.cpp:363-372 *)
Definition hint_ok (h : Z) : bool := (0 <=? h) && (h <? 2 ^ 63).
(* MultiKey.cpp:972, 990-998; None: not given, or no integer.  HashLinear.h:7-11 *)
Definition mode_of (mode : option Z) : option HashModel.hash_mode :=
  match mode with None => Some HashModel.MASK | Some 1 => Some HashModel.PRIME | Some 2 => Some HashModel.MASK | Some _ => None end.

(* the bytes of an item as an unsigned number, the lowest first *)
Fixpoint number (bytes : list Z) : Z := match bytes with [] => 0 | b :: r => b + 256 * number r end.
(* HashLinear.cpp:5162-5230: how the rows are hashed; None: as strings of bytes *)
Definition kind (core width : Z) : option HashModel.key_type :=
  if core =? 11 then Some HashModel.Float32
  else if core =? 12 then Some HashModel.Float64
  else match width with
       | 1 => Some HashModel.Item1 | 2 => Some HashModel.Item2 | 4 => Some HashModel.Item4 | 8 => Some HashModel.Item8
       | _ => None
       end.

Section Hashes.
  (* the hash functions of 4 bytes and of any number of bytes *)
  Context (crc : Z -> Z) (crc_bytes : list Z -> Z).

  (* the third result of MultiKeyGroupBy32: the first rows, with cutoffs also the running number of groups *)
  Inductive firsts := Whole (first : list Z) | Parts (first counts : list Z).
  (* MultiKey.cpp:970-1106 and HashLinear.cpp:5934-6124.  An exception is caught unless a thread that takes a partition raises it.  cutoffs without
     elements are like no cutoffs, once the element before them has been read *)
  Definition MultiKeyGroupBy32 (ord : sched) (cols : list key_column) (hint : Z) (filter : param bool) (mode : option Z) (cutoffs : param Z) :
      outcome (Z * list Z * firsts * Z) :=
    if negb (hint_ok hint) then Undefined
    else obind (prepare cols filter) (fun p =>
      let n := Z.of_nat (length (p_rows p)) in
      let dtype := if 2100000000 <? n then 7 else 5 in
      obind (LxModel.read_cutoffs n cutoffs) (fun cut =>
      match mode_of mode with
      | None => Undefined
      | Some m =>
          if negb (p_object p) then Undefined
          else
            match cut with
            | None | Some [] =>
                match match kind (p_core p) (p_width p) with
                      | Some kt => HashModel.GroupByInternal crc kt m hint (map number (p_rows p)) (p_filter p)
                      | None => HashModel.GroupByInternal_rows crc_bytes m hint (p_rows p) (p_filter p)
                      end with
                | HashModel.Ret (idx, first) => Done (dtype, idx, Whole first, Z.of_nat (length first))
                | HashModel.Throw => Error
                | HashModel.UB => Undefined
                end
            | Some ends =>
                match match kind (p_core p) (p_width p) with
                      | Some kt => HashModel.GroupByPartitioned (HashModel.GroupByInternal crc kt m hint) ord ends (map number (p_rows p)) (p_filter p)
                      | None => HashModel.GroupByPartitioned (HashModel.GroupByInternal_rows crc_bytes m hint) ord ends (p_rows p) (p_filter p)
                      end with
                | HashModel.Ret (idx, first, counts) => Done (dtype, idx, Parts first counts, Z.of_nat (length first))
                | _ => Undefined
                end
            end
      end)).

  (* MultiKey.cpp:1123-1255 and HashLinear.cpp:5235-5247: group number and next row of each row, first row and size of each group.  Too many rows are
     an error that does not stop the call; an exception leaves the function without the lock of the interpreter *)
  Definition MultiKeyGroupBy32Super (cols : list key_column) (hint : Z) (filter : param bool) (mode : option Z) : outcome (list Z * list Z * list Z * list Z) :=
    if negb (hint_ok hint) then Undefined
    else obind (prepare cols filter) (fun p =>
      let n := Z.of_nat (length (p_rows p)) in
      match mode_of mode with
      | None => Undefined
      | Some m =>
          if negb (p_object p) || (2 ^ 31 <=? n) then Undefined
          else match HashModel.GroupBySuper HashModel.bytes_eqb (HashModel.row_hash crc_bytes) (HashModel.AllocMemory m false (HashModel.entries hint n))
                       (HashModel.with_filter (p_rows p) (p_filter p)) with
               | HashModel.Ret r => if 2100000000 <? n then Error else Done r
               | _ => Undefined
               end
      end).

  (* MultiKey.cpp:1266-1402 and HashLinear.cpp:5265-5289: first row and size of each group.  After an exception None is returned without an error *)
  Definition MultiKeyUnique32 (cols : list key_column) (hint : Z) (filter : param bool) : outcome (option (Z * list Z * list Z)) :=
    if negb (hint_ok hint) then Undefined
    else obind (prepare cols filter) (fun p =>
      let n := Z.of_nat (length (p_rows p)) in
      match HashModel.Unique HashModel.bytes_eqb (HashModel.row_hash crc_bytes) (HashModel.AllocMemory HashModel.MASK false (HashModel.entries hint n))
              (HashModel.with_filter (p_rows p) (p_filter p)) with
      | HashModel.Ret (first, count) => Done (Some (if n <? 2100000000 then 5 else 7, first, count))
      | HashModel.Throw => Done None
      | HashModel.UB => Undefined
      end).

  (* MultiKey.cpp:1496-1587 and HashLinear.cpp:5335-5345; [d]: what the new arrays held.  Nothing catches an exception *)
  Definition MultiKeyHashCall (d : Z) (cols : list key_column) (hint : Z) (filter : param bool) :
      outcome (list Z * list Z * list Z * list Z * list Z * list Z * list Z) :=
    if negb (hint_ok hint) then Undefined
    else obind (prepare cols filter) (fun p =>
      let n := Z.of_nat (length (p_rows p)) in
      if negb (p_object p) || (2100000000 <=? n) then Undefined
      else match HashModel.MultiKeyHash HashModel.bytes_eqb (HashModel.row_hash crc_bytes) d (HashModel.AllocMemory HashModel.MASK false (HashModel.entries hint n))
                   (p_rows p) (p_filter p) with
           | HashModel.Ret r => Done r
           | _ => Undefined
           end).
End Hashes.
