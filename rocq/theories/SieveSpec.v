(** What is expected of reading through a mask: definitions for the statements in SieveProps.v. *)
From Verif Require Import Base.
From Verif Require MaskModel.
From Verif Require Export SdsSpec SieveModel.
Local Open Scope Z_scope.

(* the streaming decompression gives the first n bytes of what the decompression gives, when it has all of the compressed bytes or 128 KB more than ZSTD_compressBound(n) *)
Definition part_ok (k : codec) (part : Z -> list Z -> list Z) : Prop :=
  (forall n, 0 <= n -> 0 <= bound k n) /\
  forall bs x n c, decomp k bs = Some x -> 0 <= n <= len x -> Z.min (len bs) (bound k n + 131072) <= c -> part n (firstn (Z.to_nat c) bs) = firstn (Z.to_nat n) x.

(* a boolean array of numpy: the byte of element i *)
Definition mask_at (v : MaskModel.view Z) (i : nat) : option Z := nth_error (MaskModel.buf v) (MaskModel.start v + MaskModel.stride v * i).
Definition mask_ok (v : MaskModel.view Z) : Prop := forall i, (i < MaskModel.len v)%nat -> mask_at v i = Some 0 \/ mask_at v i = Some 1.
Definition contiguous (v : MaskModel.view Z) : Prop := MaskModel.stride v = 1%nat.
Definition is_true (v : MaskModel.view Z) (i : nat) : bool :=
  (i <? MaskModel.len v)%nat && match mask_at v i with Some b => negb (b =? 0) | None => false end.
(* the rows among the first n for which the mask is true *)
Definition positions (v : MaskModel.view Z) (n : Z) : list nat := filter (is_true v) (seq 0 (Z.to_nat n)).

(* the mask is not longer than a column of n rows, or it is true for every row of it *)
Definition fits (v : MaskModel.view Z) (n : Z) : Prop := Z.of_nat (MaskModel.len v) <= n \/ forall i, Z.of_nat i < n -> is_true v i = true.

(* arrays as numpy sees them: the item at an index, None: outside of the memory of the array *)
Fixpoint dot (idx strides : list Z) : Z := match idx, strides with i :: idx', s :: strides' => i * s + dot idx' strides' | _, _ => 0 end.
Definition element (a : array) (idx : list Z) : option (list Z) :=
  let o := dot idx (a_strides a) in
  if (0 <=? o) && (o + a_item a <=? len (a_data a)) then Some (firstn (Z.to_nat (a_item a)) (skipn (Z.to_nat o) (a_data a))) else None.
Fixpoint c_strides (item : Z) (dims : list Z) : list Z := match dims with [] => [] | _ :: r => product r * item :: c_strides item r end.
Definition c_order (a : array) : Prop := a_strides a = c_strides (a_item a) (a_dims a).
Definition rows (a : array) : Z := hd 0 (a_dims a).
Definition inside (idx dims : list Z) : Prop := Forall2 (fun i d => 0 <= i < d) idx dims.

(* b has the rows of a for which the mask is true, in their order, and nothing else *)
Definition taken (v : MaskModel.view Z) (a b : array) : Prop :=
  a_dtype b = a_dtype a /\ a_item b = a_item a /\ a_strides b = a_strides a /\
  a_dims b = Z.of_nat (length (positions v (rows a))) :: tl (a_dims a) /\
  len (a_data b) = product (a_dims b) * a_item b /\
  forall j i rest, nth_error (positions v (rows a)) j = Some i -> inside rest (tl (a_dims a)) ->
    element b (Z.of_nat j :: rest) = element a (Z.of_nat i :: rest) /\ element a (Z.of_nat i :: rest) <> None.

(* a column of a dataset (its enum), in a file whose type is dataset, table or array *)
Definition is_column (ftype enum : Z) : Prop :=
  (ftype = 2 \/ ftype = 3 \/ ftype = 4) /\ Z.testbit enum 0 = true /\ Z.testbit enum 2 = false /\ Z.testbit enum 3 = false /\ Z.testbit enum 4 = false.
Definition file_type (f : file) (off : Z) : Z := match ReadFileHeader f off with Some h => fld h FileType | None => 0 end.
Definition enum_at (c : contents) (t : nat) : Z := snd (nth t (c_names c) ([], 0)).

(* no array that is saved in bands has a stored size that the reader takes for the size of the array itself *)
Definition unambiguous (f : file) (off : Z) : Prop :=
  forall h names bs b, open_section f off = Some (h, names, bs) -> In b bs -> 0 < fld b ArrayBandCount -> fld b ArrayCompressedSize <> fld b ArrayUncompressedSize.
(* the array g that is read without a mask, and what is read with a mask *)
Definition masked (v : MaskModel.view Z) (ftype enum : Z) (g g' : got) : Prop :=
  (is_column ftype enum -> forall a, g = GArray a -> exists b, g' = GArray b /\ taken v a b) /\ (~ is_column ftype enum -> g' = g).
(* the columns are arrays in C order that have bytes, and at least as many rows as the mask *)
Definition columns_ok (v : MaskModel.view Z) (ftype : Z) (c : contents) (P : array -> Prop) : Prop :=
  forall t g, nth_error (c_arrays c) t = Some g -> is_column ftype (enum_at c t) ->
    exists a, g = GArray a /\ a_dims a <> [] /\ Forall (fun d => 0 <= d) (a_dims a) /\ 0 <= a_item a /\ c_order a /\ P a.
(* the arrays of a call, compared with the same call without a mask *)
Definition all_masked (v : MaskModel.view Z) (ftype : Z) (c : contents) (gs : list got) : Prop :=
  length gs = length (c_arrays c) /\ forall t g g', nth_error (c_arrays c) t = Some g -> nth_error gs t = Some g' -> masked v ftype (enum_at c t) g g'.
(* the number of rows of the first array of the file *)
Definition first_rows (c : contents) (n : Z) : Prop := exists a, nth_error (c_arrays c) 0 = Some (GArray a) /\ a_dims a <> [] /\ rows a = n.
(* every array of the file is read without a mask: an array with dimensions, or nothing for a block without dimensions *)
Definition arrays_ok (c : contents) : Prop :=
  Forall (fun g => match g with GArray a => a_dims a <> [] /\ Forall (fun d => 0 <= d) (a_dims a) /\ 0 <= a_item a | GNone => True | _ => False end) (c_arrays c).
(* the arrays that are saved with w, as a table: every column is in C order and has the rows n *)
Definition column_of (w : winfo) (t : nat) : Prop := is_column (w_ftype w) (snd (nth t (w_names w) ([], 0))).
Definition saved_columns (w : winfo) (P : array -> Prop) : Prop := forall t a, nth_error (w_arrays w) t = Some a -> column_of w t -> c_order a /\ P a.
(* what comes back of the array a with the mask *)
Definition came_back (v : MaskModel.view Z) (w : winfo) (t : nat) (a : array) (g : got) : Prop :=
  exists a', (same_type (a_item a) (a_dtype a) (a_dtype a') /\ (a_dtype a <> 7 -> a_dtype a <> 8 -> a_dtype a' = a_dtype a)
              /\ a_item a' = a_item a /\ a_dims a' = a_dims a /\ a_strides a' = a_strides a /\ a_data a' = a_data a) /\
    (column_of w t -> exists b, g = GArray b /\ taken v a' b) /\ (~ column_of w t -> g = GArray a').
