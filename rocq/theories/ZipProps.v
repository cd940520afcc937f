(** C90: compressing arrays and byte strings in memory. *)
From Verif Require Import Base SdsModel ZipModel ZipSpec ZipProofs.
Local Open Scope Z_scope.

(** Compressing a list of arrays of one length and decompressing the result gives them back. Missing: empty arrays, None, arrays of
    objects, arrays of other shapes; see below. *)
Theorem C90_arrays_round_trip_partial z junk junk' main main' sum ctx sum' ctx' level level' n l :
  zstd_ok z -> (sum = true -> ctx = true) -> Forall (plain n) l -> 0 < n < 2 ^ 63 -> Forall (fun a => cbound z (len (n_data a)) < 2 ^ 64) l ->
  exists ms os, CompressDecompressArrays z sum ctx junk main 0 level (map OArr l) = Value ms /\
    CompressDecompressArrays z sum' ctx' junk' main' 1 level' ms = Value os /\ Forall2 same_obj (map OArr l) os.
Proof. intros OK. exact (round_trip z OK junk junk' main main' sum ctx level level' sum' ctx' n l). Qed.
Print Assumptions C90_arrays_round_trip_partial.
Example C90_case : zstd_ok toyc /\ Forall (plain 3) [ND 5 4 [3] 4 1281 [1;0;0;0;2;0;0;0;3;0;0;0]; ND 18 2 [3] 6 0 [97;0;98;99;100;0]] /\
  Forall (fun a => cbound toyc (len (n_data a)) < 2 ^ 64) [ND 5 4 [3] 4 1281 [1;0;0;0;2;0;0;0;3;0;0;0]; ND 18 2 [3] 6 0 [97;0;98;99;100;0]].
Proof. split; [exact toy_ok|]. split; repeat constructor; cbn; try lia; try discriminate. Qed.

(** Compressing a byte string that is not empty and decompressing the result gives it back. *)
Theorem C90_string_round_trip_partial z sum ctx junk level x : zstd_ok z -> (sum = true -> ctx = true) -> x <> [] ->
  exists y, CompressString z sum ctx junk level x = Value y /\ DecompressString z y = Value x.
Proof. intros OK. exact (string_round_trip z OK sum ctx junk level x). Qed.
Print Assumptions C90_string_round_trip_partial.
Example C90_string_case : exists y, CompressString toyc true true (fun _ => 0) 30 [7; 8] = Value y /\ DecompressString toyc y = Value [7; 8].
Proof. apply C90_string_round_trip_partial; [exact toy_ok|reflexivity|discriminate]. Qed.

(** What is returned for an array: a header of 56 bytes with the magic, the kind of compression, the type, the number of dimensions, the size of an
    item, the flags, the length and the size of the frame, in front of the frame; the other bytes of the header are never written. *)
Theorem C90_header z sum ctx junk main level l n a m : level_used level l -> (sum = true -> ctx = true) -> plain n a -> 0 <= n ->
  CompressDecompressArrays z sum ctx junk main 0 level [OArr a] = Value [OArr m] ->
  exists y pad rest ptr, pack z l sum (cbound z (len (n_data a))) (n_data a) = Some y /\
    n_data m = [253; 1; n_dtype a; 1] ++ le 4 (n_item a) ++ le 4 (n_flags a) ++ pad ++ le 8 n ++ rest ++ le 8 (len y) ++ ptr ++ y /\
    length pad = 4%nat /\ length rest = 16%nat /\ length ptr = 8%nat.
Proof. exact (header_ok z sum ctx junk main level l n a m). Qed.
Print Assumptions C90_header.
(** The level that is used for a byte string. *)
Theorem C90_level z sum ctx junk level l x : level_used level l -> (sum = true -> ctx = true) -> x <> [] ->
  CompressString z sum ctx junk level x = match pack z l sum (cbound z (len x)) x with Some y => Value y | None => Raise end.
Proof. exact (string_level z sum ctx junk level l x). Qed.
Print Assumptions C90_level.
Example C90_header_case : level_used 30 22 /\ level_used (-1) 3 /\ level_used 5 5 /\ exists m, CompressDecompressArrays toyc true true (fun _ => 0) (fun _ => true) 0 30 [OArr (ND 5 4 [1] 4 1281 [1;0;0;0])] = Value [OArr m].
Proof. unfold level_used. split; [lia|]. split; [lia|]. split; [lia|]. eexists. vm_compute. reflexivity. Qed.

(** Whatever bytes are given to DecompressString, it raises or gives as many bytes as the frame says that it holds. *)
Theorem C90_decompress_string_total z m :
  DecompressString z m <> Undefined /\ DecompressString z m <> SysError /\
  forall x, DecompressString z m = Value x -> content z m = Some (len x) /\ unpack z (len x) m = Some x /\ x <> [].
Proof. split; [apply decompress_defined|]. split; [apply decompress_defined|]. apply decompressed_sound. Qed.
Print Assumptions C90_decompress_string_total.
Example C90_decompress_case : DecompressString toyc [2; 5; 6] = Value [5; 6] /\ DecompressString toyc [3; 5; 6] = Raise /\ DecompressString toyc [] = Raise.
Proof. repeat split. Qed.

(** An empty array is compressed, but decompressing it fails: a SystemError, or worse on another thread. *)
Theorem C90_empty_array_refuted : exists z a ms, zstd_ok z /\ plain 0 a /\ (forall main, CompressDecompressArrays z false true (fun _ => 0) main 0 3 [OArr a] = Value ms) /\
  forall main, CompressDecompressArrays z false true (fun _ => 0) main 1 3 ms = if main O then SysError else Undefined.
Proof.
  set (a := ND 5 4 [0] 4 1281 []). set (m := uint8_array (zip_header (fun _ => 0) a 1 ++ [0])). exists toyc, a, [OArr m]. split; [exact toy_ok|]. split; [repeat split; cbn; lia|].
  split; intros main; unfold m, a; vm_compute; destruct (main O); reflexivity.
Qed.
Print Assumptions C90_empty_array_refuted.
(** An empty byte string is compressed to bytes that were never written; no bytes are decompressed to it. *)
Theorem C90_empty_string_refuted : exists z, zstd_ok z /\ (exists junk junk', CompressString z false true junk 3 [] <> CompressString z false true junk' 3 []) /\ forall m, DecompressString z m <> Value [].
Proof.
  exists toyc. split; [exact toy_ok|]. split; [exists (fun _ => 0), (fun _ => 1); vm_compute; discriminate|]. intros m H. apply decompressed_sound in H as (_ & _ & H). now apply H.
Qed.
Print Assumptions C90_empty_string_refuted.
(** None among the arrays is accepted by the checks of the list, and then used as an array. *)
Theorem C90_none_refuted : exists z, zstd_ok z /\ forall sum ctx junk main level, CompressDecompressArrays z sum ctx junk main 0 level [ONone] = Undefined /\ CompressDecompressArrays z sum ctx junk main 1 level [ONone] = Undefined.
Proof. exists toyc. split; [exact toy_ok|]. intros. split; reflexivity. Qed.
Print Assumptions C90_none_refuted.
(** Arrays of objects are compressed as addresses: decompressing gives references that were not counted. *)
Theorem C90_objects_refuted : exists z a ms, zstd_ok z /\ n_dtype a = 17 /\ (forall main, CompressDecompressArrays z false true (fun _ => 0) main 0 3 [OArr a] = Value ms) /\
  forall main, CompressDecompressArrays z false true (fun _ => 0) main 1 3 ms = Undefined.
Proof.
  set (a := ND 17 8 [1] 8 1281 [1;2;3;4;5;6;7;8]). set (m := uint8_array (zip_header (fun _ => 0) a 9 ++ 8 :: n_data a)). exists toyc, a, [OArr m]. split; [exact toy_ok|]. split; [reflexivity|].
  split; intros main; unfold m, a; vm_compute; reflexivity.
Qed.
Print Assumptions C90_objects_refuted.
(** Arrays of different lengths, of two dimensions, and one item cut from a matrix are refused. *)
Theorem C90_shapes_refuted : exists z, zstd_ok z /\ forall sum ctx junk main level,
  CompressDecompressArrays z sum ctx junk main 0 level [OArr (ND 2 1 [1] 1 1281 [5]); OArr (ND 2 1 [2] 1 1281 [5; 6])] = Raise /\
  CompressDecompressArrays z sum ctx junk main 0 level [OArr (ND 2 1 [1; 2] 2 1281 [5; 6])] = Raise /\
  CompressDecompressArrays z sum ctx junk main 0 level [OArr (ND 2 1 [1] 4 1281 [5])] = Raise.
Proof. exists toyc. split; [exact toy_ok|]. intros. repeat split; reflexivity. Qed.
Print Assumptions C90_shapes_refuted.
(** Decompressing does not check that an array is as long as its header, nor that it is as long as the header says, nor that the result is
    as long as the contents. *)
Theorem C90_decompress_unchecked_refuted : exists z, zstd_ok z /\ forall sum ctx junk main level,
  CompressDecompressArrays z sum ctx junk main 1 level [OArr (uint8_array [1; 2; 3])] = Undefined /\
  CompressDecompressArrays z sum ctx junk main 1 level [OArr (uint8_array (zip_header (fun _ => 0) (ND 2 1 [1] 1 1281 []) 9 ++ [1; 2]))] = Undefined /\
  CompressDecompressArrays z sum ctx junk main 1 level [OArr (uint8_array (zip_header (fun _ => 0) (ND 2 1 [1] 1 1281 []) 3 ++ [2; 5; 6]))] = Undefined.
Proof. exists toyc. split; [exact toy_ok|]. intros. repeat split; vm_compute; reflexivity. Qed.
Print Assumptions C90_decompress_unchecked_refuted.
(** Mode 2 frees memory that was not allocated, and the other modes return None without counting it. *)
Theorem C90_modes_refuted : exists z, zstd_ok z /\ forall sum ctx junk main level, CompressDecompressArrays z sum ctx junk main 2 level [] = Undefined /\ CompressDecompressArrays z sum ctx junk main 3 level [] = NoneUncounted.
Proof. exists toyc. split; [exact toy_ok|]. intros. split; reflexivity. Qed.
Print Assumptions C90_modes_refuted.
(** With checksums on and no memory for a context, the number of the error is taken for the size of the result, so unwritten bytes are
    returned as if they were the compressed ones. *)
Theorem C90_no_context_refuted : exists z x junk, zstd_ok z /\ (exists y, CompressString z true false junk 3 x = Value y /\ len y = 64) /\
  bind (CompressString z true false junk 3 x) (DecompressString z) <> Value x.
Proof.
  exists toyc, [5], (fun _ => 0). split; [exact toy_ok|]. split; [eexists; split; [reflexivity|reflexivity]|]. vm_compute. discriminate.
Qed.
Print Assumptions C90_no_context_refuted.
