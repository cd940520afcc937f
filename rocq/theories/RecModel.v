(** src/TileRepeat.cpp: record arrays to columns. No proofs in this file.
    Memory is a list of bytes; a read outside it is [None]. The columns are separate buffers. *)
From Verif Require Import Base Mem Par.
Local Open Scope Z_scope.

(* [k] bytes at [p] *)
Fixpoint rd_bytes (mem : list Z) (p : Z) (k : nat) : option (list Z) :=
  match k with
  | O => Some []
  | S k' => match zrd mem p, rd_bytes mem (p + 1) k' with Some b, Some bs => Some (b :: bs) | _, _ => None end
  end.

(* TileRepeat.cpp:20, 37 *)
Definition CHUNKSIZE : nat := Z.to_nat 16384.
Definition L1CACHE : Z := 32768.

Section Rec.
  (* the records (pStartOffset), the size of a record *)
  Context (src : list Z) (itemSize : Z).

  (* the gathers' byte index of lane [k]: TileRepeat.cpp:44, 32-bit products *)
  Definition lane (k : nat) : Z := wrap 32 (wrap 32 itemSize * Z.of_nat k).

  (* TileRepeat.cpp:74-81, 82-89, 100-105, 127-132: one value of [sz] bytes at a time *)
  Fixpoint scalar_rows (fuel : nat) (sz : nat) (pRead startRow endRow : Z) : option (list (Z * Z)) :=
    match fuel with
    | O => None
    | S f =>
        if startRow <? endRow then
          match rd_bytes src (pRead + startRow * itemSize) sz with
          | None => None
          | Some data =>
              match scalar_rows f sz pRead (startRow + 1) endRow with
              | None => None
              | Some ws => Some (enum 1 (startRow * Z.of_nat sz) data ++ ws)
              end
          end
        else Some []
    end.
  (* TileRepeat.cpp:94-99, 111-126: [w] values of [sz] bytes at a time; the writes and the next row *)
  Fixpoint gather_rows (fuel : nat) (w sz : nat) (pRead startRow endSubRow : Z) : option (list (Z * Z) * Z) :=
    match fuel with
    | O => None
    | S f =>
        if startRow <? endSubRow then
          match all_some (map (fun k => rd_bytes src (pRead + startRow * itemSize + lane k) sz) (seq 0 w)) with
          | None => None
          | Some lanes =>
              match gather_rows f w sz pRead (startRow + Z.of_nat w) endSubRow with
              | None => None
              | Some (ws, r) => Some (enum 1 (startRow * Z.of_nat sz) (concat lanes) ++ ws, r)
              end
          end
        else Some ([], startRow)
    end.
  (* TileRepeat.cpp:92-106, 109-133 *)
  Definition vector_rows (fuel w sz : nat) (pRead startRow endRow : Z) : option (list (Z * Z)) :=
    match gather_rows fuel w sz pRead startRow (endRow - Z.of_nat w) with
    | None => None
    | Some (ws, r) => match scalar_rows fuel sz pRead r endRow with None => None | Some ws' => Some (ws ++ ws') end
    end.
  (* TileRepeat.cpp:141-146: eight bytes at a time; the next source and destination offset *)
  Fixpoint copy8 (fuel : nat) (pSrc pDest pEnd : Z) : option (list (Z * Z) * Z * Z) :=
    match fuel with
    | O => None
    | S f =>
        if pSrc + 8 <? pEnd then
          match rd_bytes src pSrc 8 with
          | None => None
          | Some data =>
              match copy8 f (pSrc + 8) (pDest + 8) pEnd with
              | None => None
              | Some (ws, s, d) => Some (enum 1 pDest data ++ ws, s, d)
              end
          end
        else Some ([], pSrc, pDest)
    end.
  (* TileRepeat.cpp:147-150 *)
  Fixpoint copy1 (fuel : nat) (pSrc pDest pEnd : Z) : option (list (Z * Z)) :=
    match fuel with
    | O => None
    | S f =>
        if pSrc <? pEnd then
          match zrd src pSrc, copy1 f (pSrc + 1) (pDest + 1) pEnd with
          | Some b, Some ws => Some ((pDest, b) :: ws)
          | _, _ => None
          end
        else Some []
    end.
  (* TileRepeat.cpp:135-153 *)
  Fixpoint default_rows (fuel : nat) (sz : nat) (pRead startRow endRow : Z) : option (list (Z * Z)) :=
    match fuel with
    | O => None
    | S f =>
        if startRow <? endRow then
          let pSrc := pRead + startRow * itemSize in
          match copy8 (S sz) pSrc (startRow * Z.of_nat sz) (pSrc + Z.of_nat sz) with
          | None => None
          | Some (ws8, s, d) =>
              match copy1 (S sz) s d (pSrc + Z.of_nat sz), default_rows f sz pRead (startRow + 1) endRow with
              | Some ws1, Some ws => Some (ws8 ++ ws1 ++ ws)
              | _, _ => None
              end
          end
        else Some []
    end.
  (* TileRepeat.cpp:72-154: the rows [startRow, endRow) of one column at offset [off] with items of [sz] bytes *)
  Definition column_rows (fuel : nat) (off : Z) (sz : nat) (startRow endRow : Z) : option (list (Z * Z)) :=
    match sz with
    | 1%nat | 2%nat => scalar_rows fuel sz off startRow endRow
    | 4%nat => vector_rows fuel 8 sz off startRow endRow
    | 8%nat => vector_rows fuel 4 sz off startRow endRow
    | _ => default_rows fuel sz off startRow endRow
    end.

  (* pOffsets and the item sizes of the columns *)
  Context (fields : list (Z * nat)).
  (* TileRepeat.cpp:59-155: the writes of all columns, marked with the column *)
  Definition all_columns (fuel : nat) (startRow endRow : Z) : option (list (nat * (Z * Z))) :=
    option_map (@concat _) (all_some (map (fun c : nat * (Z * nat) =>
      option_map (map (pair (fst c))) (column_rows fuel (fst (snd c)) (snd (snd c)) startRow endRow)) (combine (seq 0 (length fields)) fields))).
  (* TileRepeat.cpp:38-42 *)
  Definition CHUNKROWS : Z := let r := Z.quot L1CACHE (itemSize * 2) in if r <? 1 then 1 else r.
  (* TileRepeat.cpp:47-156: the while loop; startRow only advances in the columns *)
  Fixpoint convert_loop (fuel : nat) (startRow totalRows : Z) : option (list (nat * (Z * Z))) :=
    match fuel with
    | O => None
    | S f =>
        if startRow <? totalRows then
          let endRow := Z.min (startRow + CHUNKROWS) totalRows in
          match all_columns (S (Z.to_nat totalRows)) startRow endRow with
          | None => None
          | Some ws =>
              match convert_loop f (if (length fields =? 0)%nat then startRow else endRow) totalRows with
              | None => None
              | Some ws' => Some (ws ++ ws')
              end
          end
        else Some []
    end.
  (* TileRepeat.cpp:33-157; [None] also for a division by zero *)
  Definition ConvertRecArray (fuel : nat) (startRow totalRows : Z) : option (list (nat * (Z * Z))) :=
    if itemSize * 2 =? 0 then None else convert_loop fuel startRow totalRows.

  (* TileRepeat.cpp:211-260: the calls, threaded above 16384 rows *)
  Definition rec_calls (rows : nat) : list (nat * nat) := chunk_calls (CHUNKSIZE <? rows)%nat CHUNKSIZE rows.
  (* TileRepeat.cpp:163-265 after the arguments are checked; [cols]: the buffers of the columns *)
  Definition RecordArrayToColMajor (ord : sched) (fuel : nat) (rows : nat) (cols : list (list Z)) : option (list (list Z)) :=
    match all_some (map (fun call : nat * nat => ConvertRecArray fuel (Z.of_nat (fst call)) (Z.of_nat (fst call + snd call))) (rec_calls rows)) with
    | None => None
    | Some wss =>
        let ws := ord _ (concat wss) in
        all_some (map (fun c : nat * list Z => writes (map snd (filter (fun w => (fst w =? fst c)%nat) ws)) (snd c)) (combine (seq 0 (length cols)) cols))
    end.
End Rec.
