(** src/SDSFile.cpp, SDSFile.h, SDSFilePython.cpp: writing an SDS file and reading it back.
    A file is a list of bytes. Reads and writes of the operating system succeed; the splitting of reads and writes of more than 2000000000 bytes
    (SDSFile.cpp:758-782) is left out. 64-bit sums do not overflow in the model; what is stored in a field is cut to its width. ZSTD is a parameter.
    No proofs in this file. *)
From Verif Require Import Base.
From Verif Require Export HeapModel.
Local Open Scope Z_scope.

(** ** Bytes *)
(* the w bytes of an integer, the lowest first, and back *)
Fixpoint le (w : nat) (v : Z) : list Z := match w with O => [] | S w' => v mod 256 :: le w' (v / 256) end.
Fixpoint unle (bs : list Z) : Z := match bs with [] => 0 | b :: r => b + 256 * unle r end.
(* conversion to a signed integer of w bytes *)
Definition sgn (w : nat) (v : Z) : Z := let m := 256 ^ Z.of_nat w in if v mod m <? m / 2 then v mod m else v mod m - m.
(* a struct: width in bytes of every field and whether it is signed *)
Definition layout : Type := list (nat * bool).
Fixpoint enc (lay : layout) (vs : list Z) : list Z :=
  match lay, vs with (w, _) :: lay', v :: vs' => le w v ++ enc lay' vs' | _, _ => [] end.
Fixpoint dec (lay : layout) (bs : list Z) : list Z :=
  match lay with
  | [] => []
  | (w, s) :: lay' => let v := unle (firstn w bs) in (if s then sgn w v else v) :: dec lay' (skipn w bs)
  end.
Definition len (bs : list Z) : Z := Z.of_nat (length bs).
Definition fld (h : list Z) (i : nat) : Z := nth i h 0.

(* SDSFile.h:60 SDS_PAD_NUMBER *)
Definition pad (n : Z) : Z := Z.land (n + 511) (Z.lnot 511).

(** ** The file *)
Definition file : Type := list Z.
(* SDSFile.cpp:807-851 SDSFileWriteChunk: pwrite; a gap reads as zeros, nothing happens when there is nothing to write *)
Definition pwrite (f : file) (off : Z) (bs : list Z) : file :=
  let o := Z.to_nat off in
  match bs with [] => f | _ => firstn o f ++ repeat 0 (o - length f) ++ bs ++ skipn (o + length bs) f end.
(* SDSFile.cpp:754-804 SDSFileReadChunk: pread; None: fewer bytes than wanted *)
Definition pread (f : file) (off n : Z) : option (list Z) :=
  if n =? 0 then Some []
  else if (0 <=? off) && (0 <? n) && (off + n <=? len f) then Some (firstn (Z.to_nat n) (skipn (Z.to_nat off) f)) else None.

(* SDSFile.h:303-372 SDS_FILE_HEADER: the fields by their place; the 304 reserved bytes follow. Padding bytes (hPad) are written as 0 *)
Definition hMagic := 0%nat. Definition hVersionHigh := 1%nat. Definition hVersionLow := 2%nat. Definition hCompMode := 3%nat. Definition hCompType := 4%nat.
Definition hCompLevel := 5%nat. Definition hPad := 6%nat. Definition NameBlockSize := 7%nat. Definition NameBlockOffset := 8%nat. Definition NameBlockCount := 9%nat.
Definition FileType := 10%nat. Definition StackType := 11%nat. Definition AuthorId := 12%nat. Definition MetaBlockSize := 13%nat. Definition MetaBlockOffset := 14%nat.
Definition TotalMetaCompressedSize := 15%nat. Definition TotalMetaUncompressedSize := 16%nat. Definition ArrayBlockSize := 17%nat. Definition ArrayBlockOffset := 18%nat.
Definition ArraysWritten := 19%nat. Definition ArrayFirstOffset := 20%nat. Definition TotalArrayCompressedSize := 21%nat. Definition TotalArrayUncompressedSize := 22%nat.
Definition BandBlockSize := 23%nat. Definition BandBlockOffset := 24%nat. Definition BandBlockCount := 25%nat. Definition hBandSize := 26%nat.
Definition SectionBlockSize := 27%nat. Definition SectionBlockOffset := 28%nat. Definition SectionBlockCount := 29%nat. Definition SectionBlockReservedSize := 30%nat.
Definition FileOffset := 31%nat. Definition TimeStampUTCNanos := 32%nat.
Definition header_layout : layout :=
  [(4%nat, false)] ++ repeat (2%nat, true) 6 ++ repeat (8%nat, true) 3 ++ [(2%nat, true); (2%nat, true); (4%nat, true)] ++ repeat (8%nat, true) 19 ++ [(8%nat, false)].
Definition enc_header (h : list Z) : list Z := enc header_layout h ++ repeat 0 304.
Definition HEADER : Z := 512.

(* SDSFile.h:271-301 SDS_ARRAY_BLOCK *)
Definition bCompressionType := 3%nat. Definition bDType := 4%nat. Definition bNDim := 5%nat. Definition bItemSize := 6%nat. Definition bFlags := 7%nat.
Definition bDimensions := 8%nat. Definition bStrides := 13%nat. Definition ArrayDataOffset := 18%nat. Definition ArrayCompressedSize := 19%nat.
Definition ArrayUncompressedSize := 20%nat. Definition ArrayBandCount := 21%nat. Definition ArrayBandSize := 22%nat.
Definition block_layout : layout :=
  [(2%nat, true); (2%nat, true); (1%nat, false); (1%nat, true); (1%nat, true); (1%nat, true); (4%nat, true); (4%nat, true)] ++ repeat (8%nat, true) 13 ++ [(4%nat, true); (4%nat, true)].
Definition BLOCK : Z := 128.
Definition MAX_DIMS : nat := 5. (* SDSFile.h:265 *)

(** ** What is saved *)
(* SDSFile.h:444-474 SDSArrayInfo; [a_data]: the bytes from pData on, as many as the array has. BuildArrayInfo (MultiKey.cpp:213-230) has made the array contiguous *)
Record array := A { a_dtype : Z; a_item : Z; a_dims : list Z; a_strides : list Z; a_flags : Z; a_data : list Z }.
Definition product (l : list Z) : Z := fold_left Z.mul l 1.
(* ZSTD: [comp cap x]: compressing x into cap bytes, None: an error; [bound]: ZSTD_compressBound *)
Record codec := K { comp : Z -> list Z -> option (list Z); decomp : list Z -> option (list Z); bound : Z -> Z }.
(* SDS_WRITE_INFO and the keywords of the call; [w_comp]: 1 for ZSTD *)
Record winfo := W { w_arrays : list array; w_names : list (list Z * Z); w_meta : list Z; w_comp : Z; w_level : Z; w_ftype : Z; w_band : Z; w_time : Z }.

(* the bytes before the first 0 *)
Fixpoint cstr (s : list Z) : list Z := match s with [] => [] | c :: r => if c =? 0 then [] else c :: cstr r end.
(* SDSFilePython.cpp:479-521 BuildListInfo *)
Definition BuildListInfo (ns : list (list Z * Z)) : list Z := concat (map (fun p => cstr (fst p) ++ [0; snd p mod 256]) ns).

(** ** Packing an array: SDSFile.cpp:2555-2710 *)
(* SDSFile.cpp:1276-1299 GetBytesPerBand: bytes per band and number of bands *)
Definition GetBytesPerBand (a : array) (bandSize : Z) : Z * Z :=
  let dim0 := fld (a_dims a) 0 in
  if 0 <? dim0 then (product (a_dims a) / dim0 * bandSize * a_item a, (dim0 + (bandSize - 1)) / bandSize) else (0, 0).
(* SDSFile.cpp:2649-2657 and 2678-2686: compressed when that is smaller *)
Definition squeeze (k : codec) (avail : Z) (p : list Z) : list Z :=
  match comp k avail p with Some y => if len y <? len p then y else p | None => p end.
(* SDSFile.cpp:2637-2669: the bands, the last one takes what is left *)
Fixpoint pieces (n : nat) (bpb : nat) (data : list Z) : list (list Z) :=
  match n with O => [] | S O => [data] | S n' => firstn bpb data :: pieces n' bpb (skipn bpb data) end.
Fixpoint pack_bands (k : codec) (avail pos : Z) (ps : list (list Z)) : list Z * list Z :=
  match ps with
  | [] => ([], [])
  | p :: r => let c := squeeze k avail p in let '(e, b) := pack_bands k (avail - len c) (pos + len c) r in (pos + len c :: e, c ++ b)
  end.
(* SDSFile.cpp:2561-2692: the bytes stored, bandCount and bandSize *)
Definition pack_array (k : codec) (compType band : Z) (a : array) : list Z * Z * Z :=
  let data := a_data a in
  if compType =? 1 then
    let '(bpb, count) := if 0 <? band then GetBytesPerBand a band else (0, 0) in
    let band' := if (0 <? band) && (bpb =? 0) then 0 else band in
    if 0 <? count then
      let '(ends, bytes) := pack_bands k (bound k (len data)) 0 (pieces (Z.to_nat count) (Z.to_nat bpb) data) in
      (concat (map (le 8) ends) ++ bytes, count, band')
    else (squeeze k (bound k (len data)) data, count, band')
  else (data, 0, band).
(* SDSFile.cpp:2727-2736 *)
Definition five (l : list Z) : list Z := firstn MAX_DIMS (l ++ repeat 0 MAX_DIMS).
(* SDSFile.cpp:2704-2744, fields in the order of the struct *)
Definition fill_block (a : array) (off csize bcount bsize : Z) : list Z :=
  [0; BLOCK; 253; 1; sgn 1 (a_dtype a); Z.of_nat (Nat.min (length (a_dims a)) MAX_DIMS); a_item a; a_flags a]
  ++ five (a_dims a) ++ five (a_strides a) ++ [off; csize; len (a_data a); sgn 4 bcount; sgn 4 bsize].

(** ** Starting the file *)
(* SDSFile.cpp:1873-1930 FillFileHeader and 2297-2298 *)
Definition FillFileHeader (w : winfo) (off nsize msize : Z) : list Z :=
  let nboff := HEADER + off in
  let mboff := nboff + pad nsize in
  let absize := Z.of_nat (length (w_arrays w)) * BLOCK in
  let aboff := mboff + pad msize in
  [0x20534453; 4; 6; 2; sgn 2 (w_comp w); sgn 2 (w_level w); 0; nsize; nboff; Z.of_nat (length (w_names w)); sgn 2 (w_ftype w); 0; 1; msize; mboff; msize; len (w_meta w);
   absize; aboff; 0; aboff + pad absize; 0; 0; 0; 0; 0;
   (if (w_band w <? 10000) && (0 <? w_band w) then 10000 else w_band w) (* SDSFile.cpp:2871-2873 *); 0; 0; 0; 0; off; 0].
(* SDSFile.cpp:1951-1985 ReadFileHeader *)
Definition ReadFileHeader (f : file) (off : Z) : option (list Z) :=
  do bs <- pread f off HEADER;
  let h := dec header_layout bs in
  if (fld h hMagic =? 0x20534453) && (fld h hVersionHigh =? 4) then Some h else None.
(* SDSFile.cpp:2195-2328 StartCompressedFile; [f]: the file if it exists, [sec]: the section name. Returns the file and the header *)
Definition StartCompressedFile (k : codec) (w : winfo) (sec : option (list Z)) (f : option file) : option (file * list Z) :=
  let append := match sec, f with Some _, Some f => 0 <? len f | _, _ => false end in
  let f0 := if append then match f with Some f => f | None => [] end else [] in
  let off := if append then pad (len f0) else 0 in
  if append && match ReadFileHeader f0 0 with None => true | Some _ => false end then None
  else
    do meta <- (if w_comp w =? 1 then do y <- comp k (bound k (len (w_meta w))) (w_meta w); Some (if len y <? len (w_meta w) then y else w_meta w)
                else Some (w_meta w));
    let names := BuildListInfo (w_names w) in
    let h := FillFileHeader w off (len names) (len meta) in
    Some (pwrite (pwrite (pwrite f0 off (enc_header h)) (fld h NameBlockOffset) names) (fld h MetaBlockOffset) meta, h).

(** ** The worker threads: SDSFile.cpp:2555-2770 CompressFileArray *)
(* one array: not begun, its place in the file fixed (AddArrayCompressedSize, SDSFile.h:377-386), written *)
Inductive wstat := WTodo | WReserved (off : Z) | WDone.
(* the atomic additions at SDSFile.cpp:2695-2702 are one step: they go to different counters *)
Inductive event := Reserve (t : nat) | Write (t : nat).
Record wstate := WS { s_file : file; s_head : list Z; s_blocks : list (list Z); s_stat : list wstat }.
Definition add_to (h : list Z) (i : nat) (v : Z) : list Z := upd h i (fld h i + v).
Definition wstep (k : codec) (w : winfo) (e : event) (s : wstate) : option wstate :=
  match e with
  | Reserve t =>
      match nth_error (w_arrays w) t, nth_error (s_stat s) t with
      | Some a, Some WTodo =>
          let h := s_head s in
          let '(bytes, bcount, bsize) := pack_array k (w_comp w) (fld h hBandSize) a in
          let off := fld h ArrayFirstOffset + fld h TotalArrayCompressedSize in
          let h' := add_to (add_to (add_to h ArraysWritten 1) TotalArrayUncompressedSize (len (a_data a))) TotalArrayCompressedSize (pad (len bytes)) in
          Some (WS (s_file s) h' (upd (s_blocks s) t (fill_block a off (len bytes) bcount bsize)) (upd (s_stat s) t (WReserved off)))
      | _, _ => None
      end
  | Write t =>
      match nth_error (w_arrays w) t, nth_error (s_stat s) t with
      | Some a, Some (WReserved off) =>
          let '(bytes, _, _) := pack_array k (w_comp w) (fld (s_head s) hBandSize) a in
          Some (WS (pwrite (s_file s) off bytes) (s_head s) (s_blocks s) (upd (s_stat s) t WDone))
      | _, _ => None
      end
  end.
Fixpoint wrun (k : codec) (w : winfo) (es : list event) (s : wstate) : option wstate :=
  match es with [] => Some s | e :: es' => do s' <- wstep k w e s; wrun k w es' s' end.

(** ** Ending the file *)
(* SDSFile.cpp:1994-2037 BuildSectionNamesAndOffsets *)
Definition BuildSections (ss : list (list Z * Z)) : list Z := concat (map (fun p => cstr (fst p) ++ [0] ++ le 8 (snd p)) ss).
(* SDSFile.cpp:2090-2119 MakeListSections, the entries that are reached; a directory without its closing zeros is not read any further *)
Fixpoint MakeListSections (n : nat) (data : list Z) : list (list Z * Z) :=
  match n, data with
  | O, _ | _, [] => []
  | S n', _ => let name := cstr data in
               let rest := skipn (S (length name)) data in
               (name, sgn 8 (unle (firstn 8 rest))) :: MakeListSections n' (skipn 8 rest)
  end.
(* SDSFile.cpp:2148-2183 ReadListSections *)
Definition ReadListSections (f : file) (h : list Z) : option (list (list Z * Z)) :=
  if fld h SectionBlockSize =? 0 then None
  else do data <- pread f (fld h SectionBlockOffset) (fld h SectionBlockSize);
       Some (MakeListSections (Z.to_nat (fld h SectionBlockCount)) data).
Definition set_section (h : list Z) (size off count reserved : Z) : list Z :=
  upd (upd (upd (upd h SectionBlockSize size) SectionBlockOffset off) SectionBlockCount count) SectionBlockReservedSize reserved.
(* SDSFile.cpp:2371-2372 and 2426-2427: the directory in its reserved place; the bytes after it are those of a fresh buffer, 0 here *)
Definition directory (ss : list (list Z * Z)) (reserved : Z) : list Z := firstn (Z.to_nat reserved) (BuildSections ss ++ repeat 0 (Z.to_nat reserved)).
(* SDSFile.cpp:2337-2465 EndCompressedFile; [time]: GetUTCNanos() *)
Definition EndCompressedFile (sec : option (list Z)) (time : Z) (f : file) (h : list Z) (blocks : list (list Z)) : option file :=
  let last := fld h ArrayFirstOffset + fld h TotalArrayCompressedSize in
  do p <- match sec with
          | None => Some (f, h)
          | Some name =>
              if fld h FileOffset =? 0 then
                let size := len (BuildSections [(name, fld h FileOffset)]) in
                Some (pwrite f last (directory [(name, fld h FileOffset)] (pad size)), set_section h size last 1 (pad size))
              else
                do h0 <- ReadFileHeader f 0;
                let '(old, count) := match ReadListSections f h0 with
                                     | Some ss => (ss, fld h0 SectionBlockCount)
                                     | None => ([([48], 0)], 1) (* MakeFirstSectionName, SDSFile.cpp:2124-2139: the section "0" *)
                                     end in
                let ss := old ++ [(name, fld h FileOffset)] in
                let size := len (BuildSections ss) in
                let '(soff, sres) := if fld h0 SectionBlockReservedSize <? size then (last, pad size)
                                     else (fld h0 SectionBlockOffset, fld h0 SectionBlockReservedSize) in
                Some (pwrite (pwrite f soff (directory ss sres)) 0 (enc_header (set_section h0 size soff (count + 1) sres)), h)
          end;
  let '(f1, h1) := p in
  Some (pwrite (pwrite f1 (fld h FileOffset) (enc_header (upd h1 TimeStampUTCNanos time))) (fld h ArrayBlockOffset) (concat (map (enc block_layout) blocks))).
(* SDSFile.cpp:2836-3120 SDSWriteFileInternal to a file; [es]: what the worker threads do, in this order *)
Definition write_file (k : codec) (w : winfo) (sec : option (list Z)) (es : list event) (f : option file) : option file :=
  do p <- StartCompressedFile k w sec f;
  let '(f1, h) := p in
  let n := length (w_arrays w) in
  do s <- wrun k w es (WS f1 h (repeat (repeat 0 23) n) (repeat WTodo n));
  if forallb (fun x => match x with WDone => true | _ => false end) (s_stat s) (* DoMultiThreadedWork returns when all arrays are done *)
  then EndCompressedFile sec (w_time w) (s_file s) (s_head s) (s_blocks s) else None.
(* one call after the other for the same file name *)
Fixpoint write_all (k : codec) (cs : list (winfo * option (list Z) * list event)) (f : option file) : option (option file) :=
  match cs with [] => Some f | (w, sec, es) :: cs' => do f' <- write_file k w sec es f; write_all k cs' (Some f') end.

(** ** Reading *)
(* an array that is read: no object is made; the array has bytes that were never written; memory outside of the array is written; the array *)
Inductive got := GNone | GGarbage | GUndef | GArray (a : array).
(* SDSFile.cpp:3126-3153 FixupDType *)
Definition FixupDType (dtype itemsize : Z) : Z :=
  let d := if dtype =? 7 then if itemsize =? 4 then 5 else 9 else dtype in
  if d =? 8 then if itemsize =? 4 then 6 else 10 else d.
(* SDSFile.cpp:1252-1269 GetBytesPerRow *)
Definition GetBytesPerRow (dims : list Z) (item : Z) : Z :=
  let dim0 := fld dims 0 in if 0 <? dim0 then product dims / dim0 * item else 0.
Section Read.
  Context (k : codec) (f : file).
  (* SDSFile.cpp:1787-1832: the bands from the i-th on; [done]: what was read so far *)
  Fixpoint read_bands (ends : list Z) (prev off bandbytes usize : Z) (done : list Z) : option (list Z) :=
    match ends with
    | [] => Some done
    | e :: ends' =>
        let c := e - prev in
        let u := match ends' with [] => usize - len done | _ => bandbytes end in
        do bs <- pread f off c;
        do x <- (if c =? u then Some bs else do x <- decomp k bs; if len x =? u then Some x else None);
        read_bands ends' e (off + c) bandbytes usize (done ++ x)
    end.
  (* SDSFile.cpp:1729-1870 ReadAndDecompressArrayBlock: the bytes for the array, None: an error *)
  Definition read_block (b : list Z) (dims : list Z) : option (list Z) :=
    let c := fld b ArrayCompressedSize in
    let u := fld b ArrayUncompressedSize in
    let off := fld b ArrayDataOffset in
    let n := fld b ArrayBandCount in
    if c =? u then pread f off c
    else if 0 <? n then
      do hd <- pread f off (n * 8);
      read_bands (dec (repeat (8%nat, true) (Z.to_nat n)) hd) 0 (off + n * 8) (fld b ArrayBandSize * GetBytesPerRow dims (fld b bItemSize)) u []
    else do bs <- pread f off c; do x <- decomp k bs; if len x =? u then Some x else None.
  (* SDSFile.cpp:3495-3571 AllocateOneArray, SDSFilePython.cpp:1523-1597 AllocateArrayCallback, SDSFile.cpp:2477-2548 DecompressFileArray without a filter *)
  Definition read_array (b : list Z) : got :=
    let dims := firstn (Z.to_nat (fld b bNDim)) (firstn MAX_DIMS (skipn bDimensions b)) in
    let strides := firstn (Z.to_nat (fld b bNDim)) (firstn MAX_DIMS (skipn bStrides b)) in
    if fld b bNDim =? 0 then GNone
    else if negb (Z.land (fld b bFlags) 0x8000 =? 0) then GUndef (* SDS_ARRAY_FILTERED, SDSFile.cpp:2530: read through a mask that was not given *)
    else match read_block b dims with
         | None => GGarbage
         | Some bs => if product dims * fld b bItemSize <? len bs then GUndef
                      else if len bs <? product dims * fld b bItemSize then GGarbage
                      else GArray (A (FixupDType (fld b bDType) (fld b bItemSize)) (fld b bItemSize) dims strides (fld b bFlags) bs)
         end.
  (* SDSFile.cpp:4150-4175 MakeListNames *)
  Fixpoint MakeListNames (n : nat) (data : list Z) : list (list Z * Z) :=
    match n, data with
    | O, _ | _, [] => []
    | S n', _ => let name := cstr data in
                 let rest := skipn (S (length name)) data in
                 (name, unle (firstn 1 rest)) :: MakeListNames n' (skipn 1 rest)
    end.
  (* SDSFile.cpp:3840-3935 DecompressMetaData; None: an error *)
  Definition DecompressMetaData (h : list Z) : option (list Z) :=
    let c := fld h TotalMetaCompressedSize in
    let u := fld h TotalMetaUncompressedSize in
    do bs <- pread f (fld h MetaBlockOffset) c;
    if negb (c =? 0) && negb (c =? u) then do x <- decomp k bs; if len x =? u then Some x else None else Some bs.
  Fixpoint blocks_of (n : nat) (bs : list Z) : list (list Z) :=
    match n with O => [] | S n' => dec block_layout (firstn 128 bs) :: blocks_of n' (skipn 128 bs) end.
  Record contents := C { c_names : list (list Z * Z); c_meta : option (list Z); c_sections : list (list Z * Z); c_arrays : list got }.
  (* SDSFile.cpp:4216-4330 DecompressFileInternal at the offset of a section; all arrays are wanted. None: an error *)
  Definition read_file (off : Z) : option contents :=
    do h <- ReadFileHeader f off;
    do names <- (if fld h NameBlockSize =? 0 then Some []
                 else do bs <- pread f (fld h NameBlockOffset) (fld h NameBlockSize); Some (MakeListNames (Z.to_nat (fld h NameBlockCount)) bs));
    let meta := DecompressMetaData h in
    do secs <- (if (off =? 0) && negb (fld h SectionBlockCount =? 0) then ReadListSections f h else Some []);
    do bb <- pread f (fld h ArrayBlockOffset) (fld h ArrayBlockSize);
    let bs := blocks_of (Z.to_nat (fld h ArrayBlockSize / BLOCK)) bb in
    Some (C names meta secs (map (fun t => match nth_error bs t with
                                                | Some b => if negb (fld h NameBlockSize =? 0) && (fld h NameBlockCount <=? Z.of_nat t) then GUndef (* pArrayNames[colPos], SDSFile.cpp:3521 *) else read_array b
                                                | None => GUndef
                                                end) (seq 0 (Z.to_nat (fld h ArraysWritten))))).
End Read.
