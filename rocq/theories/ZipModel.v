(** src/Compress.cpp, ZstdCompress.cpp: compressing arrays and byte strings in memory. No proofs in this file.

    ZSTD is a parameter. Memory that is not written holds any bytes ([junk]). The items of the list are worked on by threads that write to
    different memory, so their order does not matter; which thread takes an item does ([main]). Allocations succeed, but for the
    ZSTD context. *)
From Verif Require Import Base SdsModel.
Local Open Scope Z_scope.

(** [pack level checksum capacity x]: ZSTD_compress2, None: an error; [unpack capacity y]: ZSTD_decompress, None: an error;
    [content y]: ZSTD_getFrameContentSize, None: unknown or an error; [cbound]: ZSTD_compressBound *)
Record zstd := Zstd { pack : Z -> bool -> Z -> list Z -> option (list Z); unpack : Z -> list Z -> option (list Z); content : list Z -> option Z; cbound : Z -> Z }.

(** [SysError]: a result is returned although an exception was set, which Python reports as a SystemError;
    [NoneUncounted]: None without counting the reference *)
Inductive reply (A : Type) := Value (a : A) | Raise | SysError | NoneUncounted | Undefined.
Arguments Value {A} a. Arguments Raise {A}. Arguments SysError {A}. Arguments NoneUncounted {A}. Arguments Undefined {A}.
Definition bind {A B} (r : reply A) (f : A -> reply B) : reply B :=
  match r with Value a => f a | Raise => Raise | SysError => SysError | NoneUncounted => NoneUncounted | Undefined => Undefined end.
(** in order, until one is not a value *)
Fixpoint each {A B} (f : A -> reply B) (l : list A) : reply (list B) :=
  match l with [] => Value [] | x :: r => bind (f x) (fun y => bind (each f r) (fun t => Value (y :: t))) end.
Fixpoint eachi {A B} (f : nat -> A -> reply B) (i : nat) (l : list A) : reply (list B) :=
  match l with [] => Value [] | x :: r => bind (f i x) (fun y => bind (eachi f (S i) r) (fun t => Value (y :: t))) end.

(** an array: number of its type, size of an item, dimensions, distance of the first dimension, flags, and its bytes in the order of a
    contiguous copy *)
Record nd := ND { n_dtype : Z; n_item : Z; n_dims : list Z; n_stride : Z; n_flags : Z; n_data : list Z }.
Inductive obj := ONone | OOther | OArr (a : nd).
Definition items (a : nd) : Z := product (n_dims a).

(* MultiKey.cpp:198-296, RipTide.cpp:188-196 and 242-258: an entry of the list. An array of one dimension counts as contiguous if it has at most one
    item. PyArray_STRIDE of an array without dimensions reads outside of the strides. *)
Definition array_info (checkrows : bool) (o : obj) : reply (option nd) :=
  match o with
  | ONone => Value None
  | OOther => Raise
  | OArr a =>
      let a' := match n_dims a with [n] => if n <=? 1 then a else ND (n_dtype a) (n_item a) [n] (n_item a) (n_flags a) (n_data a) | _ => a end in
      if (n_dtype a <? 0) || (20 <? n_dtype a) then Raise
      else match n_dims a with
           | [] => Undefined
           | [_] => if negb (n_item a' =? n_stride a') && (0 <? items a') then Raise else Value (Some a')
           | _ => if checkrows then Raise else Value (Some a')
           end
  end.
Definition rows (i : option nd) : Z := match i with Some a => items a | None => 0 end.
(* MultiKey.cpp:145-324 BuildArrayInfo of a list or tuple *)
Definition BuildArrayInfo (checkrows : bool) (l : list obj) : reply (list (option nd)) :=
  bind (each (array_info checkrows) l) (fun is =>
    match is with
    | i :: _ => if checkrows && negb (forallb (fun j => rows j =? rows i) is) then Raise else Value is
    | [] => Value []
    end).

(* Compress.h:40-66 NUMPY_HEADERSIZE: magic, compressiontype, dtype, ndim, itemsize, flags, 4 bytes of padding, 3 dimensions, compressedSize, pointer *)
Definition zip_layout : layout :=
  [(1%nat, false); (1%nat, true); (1%nat, true); (1%nat, true); (4%nat, true); (4%nat, true); (4%nat, false);
   (8%nat, true); (8%nat, true); (8%nat, true); (8%nat, false); (8%nat, false)].
Definition ZIPHEADER : Z := 56.
(* Compress.cpp:20-45 FillInNumpyHeader and 134 *)
Definition zip_header (junk : nat -> Z) (a : nd) (csize : Z) : list Z :=
  let d := firstn 3 (n_dims a ++ [junk 0%nat; junk 1%nat; junk 2%nat]) in
  enc zip_layout ([253; 1; n_dtype a; Z.min 3 (Z.of_nat (length (n_dims a))); n_item a; n_flags a; junk 3%nat] ++ d ++ [csize; junk 4%nat]).

(* ZstdCompress.cpp:26-51 ZstdCompressData into [cbound] bytes. [ctx]: ZSTD_createCCtx succeeds; else ZSTD_error_memory_allocation, which is 64, is
   taken for the size of the result *)
Definition ZstdCompressData (z : zstd) (checksum ctx : bool) (level : Z) (junk : nat -> Z) (x : list Z) : option (list Z) :=
  if checksum && negb ctx then Some (map junk (seq 0 64)) else pack z level checksum (cbound z (len x)) x.

(* Compress.cpp:194-197 and 391-395 *)
Definition clamp_level (level : Z) : Z := if level <=? 0 then 3 else if 22 <? level then 22 else level.

Definition uint8_array (m : list Z) : nd := ND 2 1 [len m] 1 1281 m.
(* Compress.cpp:50-63, 116-150 and 294-342: one array. The size given to ZSTD_getFrameContentSize includes that of the header. *)
Definition compress_one (z : zstd) (checksum ctx : bool) (level : Z) (junk : nat -> Z) (i : option nd) : reply obj :=
  match i with
  | None => Undefined
  | Some a =>
      match ZstdCompressData z checksum ctx level junk (n_data a) with
      | None => Value ONone
      | Some y => match content z (y ++ map junk (seq 0 56)) with
                  | None => Raise
                  | Some _ => Value (OArr (uint8_array (zip_header junk a (len y) ++ y)))
                  end
      end
  end.

(** the size of an item of an array that AllocateNumpyArray makes; RipTide.cpp:664-679 for strings *)
Definition elsize (dtype item : Z) : Z :=
  if (dtype =? 18) || (dtype =? 19) || (dtype =? 20) then (if item =? 0 then 1 else item)
  else nth (Z.to_nat dtype) [1; 1; 1; 2; 2; 4; 4; 8; 8; 8; 8; 4; 8; 16; 8; 16; 32; 8] 0.
Record task := Task { t_dtype : Z; t_item : Z; t_dims : list Z; t_frame : list Z; t_size : Z }.
(* Compress.cpp:226-252: before the threads start *)
Definition prepare (z : zstd) (i : option nd) : reply task :=
  match i with
  | None => Undefined
  | Some a =>
      let m := n_data a in
      if len m <? ZIPHEADER then Undefined
      else
        let h := dec zip_layout m in
        let csize := fld h 10 in
        if len m - ZIPHEADER <? csize then Undefined
        else
          let frame := firstn (Z.to_nat csize) (skipn 56 m) in
          match content z frame with
          | None => Raise
          | Some d => Value (Task (fld h 2) (fld h 4) (firstn (Z.to_nat (fld h 3)) [fld h 7; fld h 8; fld h 9]) frame d)
          end
  end.
(* Compress.cpp:67-111 DecompressOneArray. PyErr_Format in a thread without a Python thread state is undefined. An array of objects gets references that
   nobody counted. Simplified: type numbers above 20, which are never written, are not distinguished from bad ones. *)
Definition decompress_one (z : zstd) (junk : nat -> Z) (main : nat -> bool) (t : nat) (k : task) : reply obj :=
  let fails := if main t then SysError else Undefined in
  if (t_dtype k <? 0) || (20 <? t_dtype k) || existsb (fun d => d <? 0) (t_dims k) then SysError
  else
    let e := elsize (t_dtype k) (t_item k) in
    let room := product (t_dims k) * e in
    if t_size k =? 0 then fails
    else if room <? t_size k then Undefined
    else match unpack z (t_size k) (t_frame k) with
         | None => fails
         | Some x => if negb (len x =? t_size k) then fails
                     else if t_dtype k =? 17 then Undefined
                     else Value (OArr (ND (t_dtype k) e (t_dims k) (e * product (tl (t_dims k))) 1281 (x ++ map junk (seq 0 (Z.to_nat (room - len x))))))
         end.

(* Compress.cpp:171-373 CompressDecompressArrays(list, mode, level). Mode 2 frees pointers that were never written. *)
Definition CompressDecompressArrays (z : zstd) (checksum ctx : bool) (junk : nat -> Z) (main : nat -> bool) (mode level : Z) (l : list obj) : reply (list obj) :=
  bind (BuildArrayInfo (mode =? 0) l) (fun is =>
    if mode =? 0 then each (compress_one z checksum ctx (clamp_level level) junk) is
    else if mode =? 1 then bind (each (prepare z) is) (eachi (decompress_one z junk main) 0)
    else if mode =? 2 then Undefined
    else NoneUncounted).

(* Compress.cpp:377-432 CompressString: nothing is written for an empty string *)
Definition CompressString (z : zstd) (checksum ctx : bool) (junk : nat -> Z) (level : Z) (x : list Z) : reply (list Z) :=
  match x with
  | [] => Value (map junk (seq 0 (Z.to_nat (cbound z 0))))
  | _ => match ZstdCompressData z checksum ctx (clamp_level level) junk x with Some y => Value y | None => Raise end
  end.
(* Compress.cpp:439-497 DecompressString *)
Definition DecompressString (z : zstd) (m : list Z) : reply (list Z) :=
  match content z m with
  | None => Raise
  | Some d => if d =? 0 then Raise
              else match unpack z d m with Some x => if len x =? d then Value x else Raise | None => Raise end
  end.
