(** src/SDSFile.cpp, SDSFilePython.cpp: reading an SDS file through a boolean mask (mask=). SdsModel.v has the file and the reading without a mask.
    The temporary buffer of a thread is large enough. Left out: include and folder lists (every array is read), shared memory, stacking. No proofs in this file. *)
From Verif Require Import Base.
From Verif Require MaskModel.
From Verif Require Export SdsModel.
Local Open Scope Z_scope.

(* what reading through the mask does to the array: a division by zero; some bytes of the array are never written; these bytes are written, from the start of the array on *)
Inductive put := PCrash | PFail | PWrote (bs : list Z).

(* SDSFile.cpp:1431-1502: the rows whose byte in the mask is not 0; the five copies of the loop differ in the width of a row only *)
Fixpoint sift (bpr : nat) (mask data : list Z) : list Z :=
  match mask with [] => [] | m :: mask' => (if m =? 0 then [] else firstn bpr data) ++ sift bpr mask' (skipn bpr data) end.
(* part of the mask from a row on *)
Definition sub_mask (mask : list Z) (row n : Z) : list Z := firstn (Z.to_nat n) (skipn (Z.to_nat row) mask).
(* SDSFile.cpp:1419-1425 and 1588-1592: as many rows as the section has, or as the mask still has *)
Definition section_rows (u bpr row masklen : Z) : Z := let s := Z.quot u bpr in if masklen <? row + s then masklen - row else s.

(* SDSFile.h:91-97, 101-105 *)
Definition SDS_FLAGS_ORIGINAL_CONTAINER : Z := 1.
Definition SDS_FLAGS_SCALAR : Z := 4. Definition SDS_FLAGS_NESTED : Z := 8. Definition SDS_FLAGS_META : Z := 16.
(* SDSFile.cpp:4288-4290 *)
Definition fileTypeStackable (ftype : Z) : bool := (ftype =? 2) || (ftype =? 3) || (ftype =? 4).
(* SDSFile.cpp:3364-3375 PossiblyShrinkArray: the mask applies to the array; a count of true rows is never negative *)
Definition filterable (stackable : bool) (enum : Z) : bool :=
  (Z.land enum (Z.lor SDS_FLAGS_SCALAR (Z.lor SDS_FLAGS_META SDS_FLAGS_NESTED)) =? 0) && negb (Z.land enum SDS_FLAGS_ORIGINAL_CONTAINER =? 0) && stackable.
(* SDSFile.cpp:3377-3392: the first dimension of the array; dims is the Dimensions of the block itself, so the block is changed *)
Definition shrink (trues : Z) (dims : list Z) : list Z :=
  match dims with [] => [] | d :: r => (if d <? trues then d else trues) :: r end.

(* what a call gives: the process is stopped by a division by zero; an error is raised; the arrays *)
Inductive outcome := Crash | Error | Arrays (gs : list got).
Fixpoint gather (l : list (option got)) : outcome :=
  match l with
  | [] => Arrays []
  | Some g :: l' => match gather l' with Arrays gs => Arrays (g :: gs) | o => o end
  | None :: _ => Crash
  end.

(* ZSTD: [part n bs]: what the streaming decompression of bs puts into a buffer of n bytes (SDSFile.cpp:286-330); [bound]: CompressGetBound *)
Section Read.
  Context (k : codec) (part : Z -> list Z -> list Z) (f : file).

  (* SDSFile.cpp:1302-1518 DecompressWithFilter. c, u: compressedSize and uncompressedSize; trues: BoolMaskTrueCount *)
  Definition DecompressWithFilter (c u off bpr : Z) (mask : list Z) (trues row : Z) : put :=
    if bpr =? 0 then PCrash
    else
      let lastRow := len mask in
      let lastPossibleRow := Z.quot (u - bpr) bpr in
      let lastData := bpr * lastRow in
      if (row =? 0) && (lastRow <=? lastPossibleRow) && (lastRow =? trues) && (lastData <=? u) then
        if c =? u then match pread f off lastData with Some bs => PWrote bs | None => PFail end
        else
          let worstCase := bound k lastData + 2 * 65536 in
          match pread f off (if worstCase <? c then worstCase else c) with
          | None => PFail
          | Some bs => let u' := if u <=? lastData then u else lastData in
                       let x := part u' bs in if len x =? u' then PWrote x else PFail
          end
      else if lastRow <? row then PWrote []
      else if 0 <? trues then
        match (if c =? u then pread f off u else do bs <- pread f off c; let x := part u bs in if len x =? u then Some x else None) with
        | None => PFail
        | Some data => PWrote (sift (Z.to_nat bpr) (sub_mask mask row (section_rows u bpr row (len mask))) data)
        end
      else PWrote [].

  (* SDSFile.cpp:1560-1634: the bands from the i-th on *)
  Fixpoint filter_bands (ends : list Z) (i prev off bpr bandSize usize : Z) (mask : list Z) (trues row : Z) : put :=
    match ends with
    | [] => PWrote []
    | e :: ends' =>
        let c := e - prev in
        let u := match ends' with [] => usize - bandSize * bpr * i | _ => bandSize * bpr end in
        if bpr =? 0 then PCrash
        else if len mask <=? row then PWrote []
        else
          let s := section_rows u bpr row (len mask) in
          match MaskModel.SumBooleanMask (sub_mask mask row s) with
          | None => PFail
          | Some trueCount =>
              let rest := filter_bands ends' (i + 1) e (off + c) bpr bandSize usize mask trues (row + s) in
              if trueCount =? 0 then rest
              else match DecompressWithFilter c u off bpr mask trues row, rest with
                   | PWrote x, PWrote y => if len x =? trueCount * bpr then PWrote (x ++ y) else PFail (* the next band is put trueCount rows further on *)
                   | PCrash, _ | _, PCrash => PCrash
                   | _, _ => PFail
                   end
          end
    end.

  (* SDSFile.cpp:1523-1637 ReadAndDecompressBandWithFilter, 1648-1719 ReadAndDecompressArrayBlockWithFilter; [dims]: the dimensions of the block as they are now;
     [info]: the TrueCount of the file when stacking *)
  Definition read_block_filtered (b dims : list Z) (mask : list Z) (trues row : Z) (info : option Z) : put :=
    let off := fld b ArrayDataOffset in
    let n := fld b ArrayBandCount in
    let bpr := GetBytesPerRow dims (fld b bItemSize) in
    if 0 <? n then
      match pread f off (n * 8) with
      | None => PFail
      | Some hd => if match info with Some 0 => true | _ => false end then PWrote []
                   else filter_bands (dec (repeat (8%nat, true) (Z.to_nat n)) hd) 0 0 (off + n * 8) bpr (fld b ArrayBandSize) (fld b ArrayUncompressedSize) mask trues row
      end
    else DecompressWithFilter (fld b ArrayCompressedSize) (fld b ArrayUncompressedSize) off bpr mask trues row.

  Definition block_dims (b : list Z) : list Z := firstn (Z.to_nat (fld b bNDim)) (firstn MAX_DIMS (skipn bDimensions b)).
  Definition block_strides (b : list Z) : list Z := firstn (Z.to_nat (fld b bNDim)) (firstn MAX_DIMS (skipn bStrides b)).
  (* the array object with its bytes: all of them written, too few, or bytes behind its end *)
  Definition finished (b dims : list Z) (bs : list Z) : got :=
    if product dims * fld b bItemSize <? len bs then GUndef
    else if len bs <? product dims * fld b bItemSize then GGarbage
    else GArray (A (FixupDType (fld b bDType) (fld b bItemSize)) (fld b bItemSize) dims (block_strides b) (fld b bFlags) bs).
  (* SDSFile.cpp:3497-3571 AllocateOneArray, SDSFilePython.cpp:1523-1597, SDSFile.cpp:2477-2548 DecompressFileArray. None: the process is stopped.
     An array that was saved with the flag SDS_ARRAY_FILTERED is left out *)
  Definition read_array_masked (stackable : bool) (mask : list Z) (trues : Z) (enum : Z) (b : list Z) : option got :=
    if (fld b bNDim =? 0) || negb (Z.land (fld b bFlags) 0x8000 =? 0) || negb (filterable stackable enum) then Some (read_array k f b)
    else
      let dims := shrink trues (block_dims b) in
      match read_block_filtered b dims mask trues 0 None with
      | PCrash => None
      | PFail => Some GGarbage
      | PWrote bs => Some (finished b dims bs)
      end.
  (* SDSFile.cpp:5872-6060 DecompressMultiArray without a master block; [trues]: the count for the size of the array, [all]: the count while reading *)
  Definition read_packet (stackable : bool) (mask : option (list Z)) (trues all : Z) (enum : Z) (b : list Z) : option got :=
    let d0 := block_dims b in
    let use := match mask with Some _ => filterable stackable enum | None => false end in
    let dims := if use then shrink trues d0 else d0 in
    if (fld b bNDim =? 0) || negb (Z.land (fld b bFlags) 0x8000 =? 0) then Some (read_array k f b)
    else if GetBytesPerRow dims (fld b bItemSize) =? 0 then Some (finished b dims [])
    else match mask, use with
         | Some m, true => match read_block_filtered b dims m all 0 None with PCrash => None | PFail => Some GGarbage | PWrote bs => Some (finished b dims bs) end
         | _, _ => Some (read_array k f b)
         end.

  (* SDSFile.cpp:4216-4280: the header, the names with their enums, and the blocks, of the section at the offset [off] *)
  Definition open_section (off : Z) : option (list Z * list (list Z * Z) * list (list Z)) :=
    do h <- ReadFileHeader f off;
    do names <- (if fld h NameBlockSize =? 0 then Some []
                 else do bs <- pread f (fld h NameBlockOffset) (fld h NameBlockSize); Some (MakeListNames (Z.to_nat (fld h NameBlockCount)) bs));
    do secs <- (if (off =? 0) && negb (fld h SectionBlockCount =? 0) then ReadListSections f h else Some []);
    do bb <- pread f (fld h ArrayBlockOffset) (fld h ArrayBlockSize);
    Some (h, names, blocks_of (Z.to_nat (fld h ArrayBlockSize / BLOCK)) bb).
  (* the arrays one by one; without names there are no enums: 0 *)
  Definition each (o : list Z * list (list Z * Z) * list (list Z)) (read : Z -> list Z -> option got) : outcome :=
    let '(h, names, bs) := o in
    gather (map (fun t => match nth_error bs t with
                          | Some b => if negb (fld h NameBlockSize =? 0) && (fld h NameBlockCount <=? Z.of_nat t) then Some GUndef else read (snd (nth t names ([], 0))) b
                          | None => Some GUndef
                          end) (seq 0 (Z.to_nat (fld h ArraysWritten)))).
  (* SDSFilePython.cpp:1600-1639 GetFilters: the bytes from the first element of the mask on, whatever its strides *)
  (* SDSFile.cpp:4219-4345 DecompressFileInternal, for rt DecompressFile of one file with a mask *)
  Definition decompress_file (off : Z) (v : MaskModel.view Z) : outcome :=
    let mask := MaskModel.read_contiguous v in
    match MaskModel.SumBooleanMask mask, open_section off with
    | Some trues, Some (h, names, bs) => each (h, names, bs) (read_array_masked (fileTypeStackable (fld h FileType)) mask trues)
    | _, _ => Error
    end.
  (* SDSFile.cpp:6367-6384: an error for the file; [fancy]: the keyword fancy, if it is given; the first array decides *)
  Definition mask_mismatch (fancy : option bool) (masklen : Z) (h : list Z) (bs : list (list Z)) : bool :=
    match fancy with
    | Some fancy => (0 <? fld h ArraysWritten) &&
                    (let d := fld (hd [] bs) bDimensions in (d <? masklen) || (negb fancy && negb (d =? masklen)))
    | None => false
    end.
  (* SDSFile.cpp:6409-6425: how many rows of this file the mask has *)
  Definition count_for_file (fancy : option bool) (mask : list Z) (all : Z) (h : list Z) (bs : list (list Z)) : option Z :=
    if negb (fld h ArraysWritten =? 0) && match fancy with Some b => b | None => true end then
      let d := fld (hd [] bs) bDimensions in
      MaskModel.SumBooleanMask (firstn (Z.to_nat (if len mask <? d then len mask else d)) mask)
    else Some all.
End Read.

(* SDSFile.cpp:6357-6453 ReadIOPackets: several files, each by itself, with one mask for all of them; files that cannot be opened have no arrays *)
Definition read_many (k : codec) (part : Z -> list Z -> list Z) (fancy : option bool) (v : MaskModel.view Z) (fs : list file) : option (list outcome) :=
  let mask := MaskModel.read_contiguous v in
  let opened := map (fun f => (f, open_section f 0)) fs in
  match MaskModel.SumBooleanMask mask with
  | None => None
  | Some all =>
      if existsb (fun p => match snd p with Some (h, _, bs) => mask_mismatch fancy (len mask) h bs | None => false end) opened then None
      else Some (map (fun p => match snd p with
                               | None => Arrays []
                               | Some (h, names, bs) =>
                                   match count_for_file fancy mask all h bs with
                                   | None => Error
                                   | Some trues => each (h, names, bs) (read_packet k part (fst p) (fileTypeStackable (fld h FileType)) (Some mask) trues all)
                                   end
                               end) opened)
  end.
