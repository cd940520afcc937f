(** src/SDSFile.cpp: putting several SDS files into one file whose sections they become (MultiConcatFiles).
    Files are opened one after the other here: the threads that open them (SDSFile.cpp:6345) only read. The operating system does not fail, except that a file may be missing.
    Bytes that a read does not deliver are those of a fresh buffer, 0 here. No proofs in this file. *)
From Verif Require Import Base.
From Verif Require Export SdsModel.
Local Open Scope Z_scope.

(** ** The directory of the operating system *)
Definition fname : Type := list Z.
Definition disk : Type := fname -> option file.
Definition named (x y : fname) : bool := if list_eq_dec Z.eq_dec x y then true else false.
Definition put (d : disk) (n : fname) (f : file) : disk := fun m => if named m n then Some f else d m.
Definition on_disk (d : disk) (n : fname) : file := match d n with Some f => f | None => [] end.
(* SDSFile.cpp:754-804 SDSFileReadChunk into a buffer of n bytes; a short read leaves the rest of the buffer *)
Definition read_chunk (f : file) (off n : Z) : list Z :=
  let got := firstn (Z.to_nat n) (skipn (Z.to_nat off) f) in got ++ repeat 0 (Z.to_nat n - length got).
(* SDSFile.cpp:807-851 SDSFileWriteChunk *)
Definition write_chunk (d : disk) (n : fname) (off : Z) (bs : list Z) : disk := put d n (pwrite (on_disk d n) off bs).

(** ** Opening the files *)
(* what is kept of an open file: its name, the 512 bytes of its header, its sections and its size *)
Record opened := Op { op_name : fname; op_head : list Z; op_secs : list (list Z * Z); op_size : Z }.
(* SDSFile.cpp:4219-4283 DecompressFileInternal in mode 5 at offset 0 and 6336-6339 DecompressManyFiles. None: the file is not valid; true: an error was noted *)
Definition open_input (k : codec) (d : disk) (n : fname) : option opened * bool :=
  match d n with
  | None => (None, true)
  | Some f =>
      match pread f 0 HEADER, ReadFileHeader f 0 with
      | Some hb, Some h =>
          match (if fld h NameBlockSize =? 0 then Some [] else pread f (fld h NameBlockOffset) (fld h NameBlockSize)),
                (if fld h SectionBlockCount =? 0 then Some [] else ReadListSections f h),
                pread f (fld h ArrayBlockOffset) (fld h ArrayBlockSize) with
          | Some _, Some secs, Some _ => (Some (Op n hb secs (len f)), match DecompressMetaData k f h with Some _ => false | None => true end)
          | _, _, _ => (None, true)
          end
      | _, _ => (None, true)
      end
  end.

(** ** Moving a section *)
(* SDSFile.cpp:6497-6506 and 6609-6618 *)
Definition bump (fo : Z) (h : list Z) (i : nat) : list Z := if fld h i =? 0 then h else add_to h i fo.
(* SDSFile.cpp:6496-6509 and 6608-6621 *)
Definition fix_fields (fo : Z) (h : list Z) : list Z :=
  add_to (upd (fold_left (bump fo) [NameBlockOffset; MetaBlockOffset; ArrayBlockOffset; ArrayFirstOffset; BandBlockOffset] h) SectionBlockOffset 0) FileOffset fo.
(* the header as it is written again: the fields and the reserved bytes *)
Definition fix_header (fo : Z) (hb : list Z) : list Z := enc header_layout (fix_fields fo (dec header_layout hb)) ++ skipn 208 hb.
(* SDSFile.cpp:6564-6570 and 6651-6657 *)
Fixpoint fix_blocks (fo : Z) (n : nat) (bs : list Z) : list Z :=
  match n with
  | O => bs
  | S n' => enc block_layout (add_to (dec block_layout (firstn 128 bs)) ArrayDataOffset fo) ++ fix_blocks fo n' (skipn 128 bs)
  end.
(* SDSFile.cpp:6554-6575 and 6637-6664: h is the header before it was changed. None: memory after the buffer is changed *)
Definition fix_array_block (d : disk) (n o : fname) (fo : Z) (h : list Z) : option disk :=
  if fld h ArrayBlockSize <? fld h ArraysWritten * BLOCK then None
  else Some (write_chunk d o (fo + fld h ArrayBlockOffset)
               (fix_blocks fo (Z.to_nat (fld h ArraysWritten)) (read_chunk (on_disk d n) (fld h ArrayBlockOffset) (fld h ArrayBlockSize)))).

(* SDSFile.cpp:6526 *)
Definition BUFFER_SIZE : Z := 1024 * 1024.
(* SDSFile.cpp:6533-6551 *)
Fixpoint copy_rest (fuel : nat) (d : disk) (n o : fname) (left loc cur : Z) : disk :=
  match fuel with
  | O => d
  | S fuel' =>
      if 0 <? left then
        let c := if BUFFER_SIZE <? left then BUFFER_SIZE else left in
        copy_rest fuel' (write_chunk d o cur (read_chunk (on_disk d n) loc c)) n o (left - c) (loc + c) (cur + c)
      else d
  end.
(* SDSFile.cpp:6583-6665: the sections after the first one; the offsets noted for the directory, and whether every header could be read. None: see above *)
Fixpoint fix_sections (d : disk) (n o : fname) (fo : Z) (offs : list Z) : option (disk * list Z * bool) :=
  match offs with
  | [] => Some (d, [], true)
  | s :: offs' =>
      match pread (on_disk d n) s HEADER with
      | None => Some (d, [], false)
      | Some hb =>
          do d2 <- fix_array_block (write_chunk d o (fo + s) (fix_header fo hb)) n o fo (dec header_layout hb);
          do r <- fix_sections d2 n o fo offs';
          let '(d3, es, good) := r in Some (d3, fo + s :: es, good)
      end
  end.
(* SDSFile.cpp:6469-6671 AppendToFile: the disk, the offsets for the directory (UpdateSectionData, 6454-6461) and the offset after the file *)
Definition AppendToFile (d : disk) (o : fname) (p : opened) (fo : Z) : option (disk * list Z * Z) :=
  let h := dec header_layout (op_head p) in
  let d1 := write_chunk d o fo (fix_header fo (op_head p)) in
  let rest := op_size p - HEADER in
  let d2 := copy_rest (Z.to_nat rest) d1 (op_name p) o rest HEADER (fo + HEADER) in
  do d3 <- fix_array_block d2 (op_name p) o fo h;
  if fld h SectionBlockOffset =? 0 then Some (d3, [fo], fo + op_size p)
  else if Z.of_nat (length (op_secs p)) =? fld h SectionBlockCount then
    match op_secs p with
    | [] => None (* the directory has no place for the entry *)
    | _ :: secs =>
        do r <- fix_sections d3 (op_name p) o fo (map snd secs);
        let '(d4, es, good) := r in Some (d4, fo :: es, if good then fo + op_size p else 0)
    end
  else None. (* offsets that were never set, SDSFile.cpp:2114-2115 *)

(* SDSFile.cpp:6738-6750: the files one after the other *)
Fixpoint append_all (d : disk) (o : fname) (ps : list opened) (fo : Z) : option (disk * list Z * Z) :=
  match ps with
  | [] => Some (d, [], fo)
  | p :: ps' =>
      do r <- AppendToFile d o p fo;
      let '(d1, es, next) := r in
      do r2 <- append_all d1 o ps' (pad next);
      let '(d2, es2, last) := r2 in Some (d2, es ++ es2, last)
  end.
(* SDSFile.cpp:6703-6724 *)
Definition section_count (p : opened) : Z :=
  let h := dec header_layout (op_head p) in if fld h SectionBlockOffset =? 0 then 1 else fld h SectionBlockCount.
(* SDSFile.cpp:6678-6773 SDSConcatFiles, of the valid files; None: see above *)
Definition SDSConcatFiles (d : disk) (o : fname) (ps : list opened) : option disk :=
  match ps with
  | [] => Some d
  | p0 :: _ =>
      let count := fold_left (fun c p => c + section_count p) ps 0 in
      do r <- append_all (put d o []) o ps 0; (* the output is opened with O_TRUNC, SDSFile.cpp:727 *)
      let '(d1, es, fo) := r in
      let size := count * 10 in
      let d2 := write_chunk d1 o fo (directory (map (fun e => ([48], e)) es) (pad size)) in
      let h := fix_fields 0 (dec header_layout (op_head p0)) in
      Some (write_chunk d2 o 0 (enc header_layout (upd (set_section h size fo count (pad size)) StackType 1) ++ skipn 208 (op_head p0)))
  end.

(* what the call does: memory is damaged, or it returns; true: it raises ValueError *)
Inductive outcome := Undef | Returns (raised : bool) (d : disk).
(* SDSFilePython.cpp:1840-1935 InternalDecompressFiles and SDSFile.cpp:6780-6826 ReadManyFiles, for MultiConcatFiles (SDSFilePython.cpp:1961-1964) with output=[o] and mustexist=[must] *)
Definition MultiConcatFiles (k : codec) (must : bool) (d : disk) (ns : list fname) (o : fname) : outcome :=
  let ins := map (open_input k d) ns in
  let valid := flat_map (fun x => match fst x with Some p => [p] | None => [] end) ins in
  match ns with
  | [] => Returns false d
  | _ =>
      if must && existsb (fun x => match fst x with Some _ => false | None => true end) ins then Returns true d
      else match valid with
           | [] => Returns true d
           | _ => match SDSConcatFiles d o valid with
                  | Some d' => Returns (existsb snd ins) d'
                  | None => Undef
                  end
           end
  end.
