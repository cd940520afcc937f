(** Model of the grouping helpers of /repo/src/MultiKey.cpp: BinCount, MakeiGroup, GroupFromBinCount,
    MakeiNext and GroupByPack32.  Integer keys and indices are Z; None is an access outside a buffer. *)
From Verif Require Import Base Mem SegModel.
Local Open Scope Z_scope.

(* RipTide.h:248-249 *)
Definition GB_INVALID_INDEX : Z := -1.
Definition GB_BASE_INDEX : Z := 1.

(** ** Counting *)

(* MultiKey.cpp:2224-2236, the loop of BinCountAlgo.  The counts cannot overflow: int32 is only used for at
   most 2000000000 rows (MultiKey.cpp:2434-2437). *)
Fixpoint count_loop (ks : list Z) (total_unique : Z) (cnt : list Z) : option (list Z) :=
  match ks with
  | [] => Some cnt
  | key :: ks' =>
      if (0 <=? key) && (key <? total_unique) then
        match zrd cnt key with
        | Some c => match zwr cnt key (c + 1) with Some cnt' => count_loop ks' total_unique cnt' | None => None end
        | None => None
        end
      else count_loop ks' total_unique cnt
  end.

(* the rows low .. high-1 of an array *)
Definition band_rows {A} (l : list A) (b : Z * Z) : list A :=
  firstn (Z.to_nat (snd b - fst b)) (skipn (Z.to_nat (fst b)) l).

(* MultiKey.cpp:2205-2237: zero the counts, then count the rows startRow .. stopRow-1 *)
Definition BinCountAlgo (keys : list Z) (startRow stopRow total_unique : Z) : option (list Z) :=
  count_loop (band_rows keys (startRow, stopRow)) total_unique (repeat 0 (Z.to_nat total_unique)).

(* MultiKey.cpp:2296-2358: the rows are split by SegmentBins and every worker counts its rows into its own
   part of one workspace (pUserMemory): one list of counts per worker.  The parts are disjoint, so the order of the
   workers does not matter. *)
Fixpoint each_band {B A} (f : B -> option A) (bands : list B) : option (list A) :=
  match bands with
  | [] => Some []
  | b :: bs => match f b with
               | Some x => match each_band f bs with Some xs => Some (x :: xs) | None => None end
               | None => None
               end
  end.

Definition InternalBinCount (keys : list Z) (unique_rows futex coresRequested : Z) : option (list (Z * Z) * list (list Z)) :=
  let bands := segment_bins (Z.of_nat (length keys)) futex coresRequested in
  match each_band (fun b => BinCountAlgo keys (fst b) (snd b) unique_rows) bands with
  | Some m => Some (bands, m)
  | None => None
  end.

(* MultiKey.cpp:2468-2502: the first worker's counts plus those of all other workers *)
Definition add_counts (a b : list Z) : list Z := map (fun p => fst p + snd p) (combine a b).
Definition total_counts (m : list (list Z)) : list Z :=
  match m with [] => [] | c0 :: cs => fold_left add_counts cs c0 end.

(* MultiKey.cpp:2527-2540: the running sum over the workers for one bin; [col] has one entry per worker *)
Fixpoint cumsum (lastvalue : Z) (col : list Z) : list Z * Z :=
  match col with
  | [] => ([], lastvalue)
  | c :: col' => let '(r, l) := cumsum (lastvalue + c) col' in (lastvalue :: r, l)
  end.

(* MultiKey.cpp:2521-2541: for each bin, for each worker; [rows] lists the bins, each with one entry per
   worker.  The source stores the matrix by worker; see [transpose]. *)
Fixpoint cumsum2 (lastvalue : Z) (rows : list (list Z)) : list (list Z) :=
  match rows with
  | [] => []
  | col :: rows' => let '(r, l) := cumsum lastvalue col in r :: cumsum2 l rows'
  end.

(* the entries number i of all lists *)
Definition column (m : list (list Z)) (i : nat) : list Z := map (fun l => nth i l 0) m.
Definition transpose (n : nat) (m : list (list Z)) : list (list Z) := map (column m) (seq 0 n).

(** ** Filling iGroup *)

(* the body shared by MultiKey.cpp:1878-1891 (MakeiGroup2) and 1978-1990 (MakeiGroup): the row number is
   stored at the cursor of its bin, which moves on.  [rows] are pairs (row number, key).  The result lists
   the writes to piGroup and the cursors afterwards. *)
Fixpoint igroup_loop (rows : list (Z * Z)) (binLow binHigh : Z) (cur : list Z) : option (list (Z * Z) * list Z) :=
  match rows with
  | [] => Some ([], cur)
  | (i, key) :: rows' =>
      if (binLow <=? key) && (key <? binHigh) then
        match zrd cur key with
        | Some nextloc =>
            match zwr cur key (nextloc + 1) with
            | Some cur' => match igroup_loop rows' binLow binHigh cur' with
                           | Some (ws, c) => Some ((nextloc, i) :: ws, c)
                           | None => None
                           end
            | None => None
            end
        | None => None
        end
      else igroup_loop rows' binLow binHigh cur
  end.

Definition numbered (keys : list Z) : list (Z * Z) := enum 1 0 keys.

(* MultiKey.cpp:1861-1893: one worker fills in its rows; [cur] is its column of the matrix *)
Definition MakeiGroup2 (keys : list Z) (band : Z * Z) (unique_count : Z) (cur : list Z) : option (list (Z * Z)) :=
  match igroup_loop (band_rows (numbered keys) band) 0 unique_count cur with
  | Some (ws, _) => Some ws
  | None => None
  end.

(* MultiKey.cpp:2406-2668.  [futex] is the pool's thread count (SegmentBins), [threading] is !NoThreading,
   [ord] the order in which the writes of the workers to iGroup happen, [junk] the uninitialised iGroup.
   The dtypes are not modelled: the counts and row numbers fit the chosen one. *)
Inductive bincount_result :=
  | BC_error
  | BC_oob
  | BC_counts (ncount : list Z)
  | BC_packed (ncount igroup ifirst : list Z).

Definition BinCount (ord : sched) (threading pack : bool) (futex : Z) (keys : list Z) (unique_rows : Z) (junk : list Z)
    : bincount_result :=
  let totalRows := Z.of_nat (length keys) in
  if (unique_rows =? 0) || (totalRows <=? 0) then BC_error
  else if pack || (threading && (32000 <? totalRows) && (50 <? totalRows / unique_rows)) then
    match InternalBinCount keys unique_rows futex 31 with
    | Some (bands, m) =>
        let ncount := total_counts m in
        if pack then
          let m2 := transpose (length m) (cumsum2 0 (transpose (Z.to_nat unique_rows) m)) in
          match each_band (fun x => x) (map (fun p => MakeiGroup2 keys (fst p) unique_rows (snd p)) (combine bands m2)) with
          | Some wss =>
              match writes (ord _ (concat wss)) junk with
              | Some igroup => BC_packed ncount igroup (nth 0 m2 [])
              | None => BC_oob
              end
          | None => BC_oob
          end
        else BC_counts ncount
    | None => BC_oob
    end
  else match BinCountAlgo keys 0 totalRows unique_rows with Some c => BC_counts c | None => BC_oob end.

(** ** GroupFromBinCount *)

(* One step of a worker: store one row of its band, or (after all rows) subtract the count of one bin. *)
Inductive gop := Row (i key : Z) | Fix (bin : Z).

(* MultiKey.cpp:1960-2000: the steps of the worker that owns the bins binLow .. binHigh-1 *)
Definition band_ops (keys : list Z) (binLow binHigh : Z) : list gop :=
  map (fun p => Row (fst p) (snd p)) (filter (fun p => (binLow <=? snd p) && (snd p <? binHigh)) (numbered keys))
  ++ map (fun k => Fix (binLow + Z.of_nat k)) (seq 0 (Z.to_nat (binHigh - binLow))).

(* The steps act on the shared arrays piFirstGroup ([cur]) and piGroup (collected as writes) *)
Fixpoint run_ops (ops : list gop) (ncount cur : list Z) : option (list (Z * Z) * list Z) :=
  match ops with
  | [] => Some ([], cur)
  | Row i key :: ops' =>
      match zrd cur key with
      | Some nextloc =>
          match zwr cur key (nextloc + 1) with
          | Some cur' => match run_ops ops' ncount cur' with
                         | Some (ws, c) => Some ((nextloc, i) :: ws, c)
                         | None => None
                         end
          | None => None
          end
      | None => None
      end
  | Fix b :: ops' =>
      match zrd cur b, zrd ncount b with
      | Some c, Some n => match zwr cur b (c - n) with Some cur' => run_ops ops' ncount cur' | None => None end
      | _, _ => None
      end
  end.

(* MultiKey.cpp:2149-2193: the workers; one when threading is off or there are few rows *)
Definition gfb_bands (threading : bool) (futex totalUnique totalRows : Z) : list (Z * Z) :=
  if threading && (32000 <? totalRows) then segment_bins totalUnique futex 0 else [(0, totalUnique)].

Definition gfb_programs (threading : bool) (futex : Z) (keys ncount : list Z) : list (list gop) :=
  map (fun b => band_ops keys (fst b) (snd b))
    (gfb_bands threading futex (Z.of_nat (length ncount)) (Z.of_nat (length keys))).

(* MultiKey.cpp:2059-2195 for one interleaving [ops] of the workers' programs.  The running sum
   (2103-2130) is [excl].  Result: iGroup and iFirstGroup. *)
Definition GroupFromBinCount (ops : list gop) (ncount junk : list Z) : option (list Z * list Z) :=
  match run_ops ops ncount (excl 0 ncount) with
  | Some (ws, ifirst) => match writes ws junk with Some igroup => Some (igroup, ifirst) | None => None end
  | None => None
  end.

(** ** MakeiNext *)

(* MultiKey.cpp:515-526 and 530-539: the loop over the rows, in the order given ([rows] are pairs
   (row number, key)); [w] is the width of the key type, into which the row number is cast *)
Fixpoint next_loop (w : Z) (rows : list (Z * Z)) (numUnique : Z) (group next : list Z) : option (list Z) :=
  match rows with
  | [] => Some next
  | (i, g) :: rows' =>
      if (0 <=? g) && (g <? numUnique) then
        match zrd group g with
        | Some x =>
            match zwr next i x, zwr group g (wrap w i) with
            | Some next', Some group' => next_loop w rows' numUnique group' next'
            | _, _ => None
            end
        | None => None
        end
      else next_loop w rows' numUnique group next
  end.

(* the invalid value of a signed integer type, missing_values.h *)
Definition int_invalid (w : Z) : Z := - 2 ^ (w - 1).

(* MultiKey.cpp:488-542 and 554-606; [prev] is mode <> 0; [junk] is the uninitialised result *)
Definition MakeiNext (w : Z) (prev : bool) (keys : list Z) (unique_rows : Z) (junk : list Z) : option (list Z) :=
  let numUnique := unique_rows + GB_BASE_INDEX in
  let group := repeat (int_invalid w) (Z.to_nat numUnique) in
  next_loop w (if prev then numbered keys else rev (numbered keys)) numUnique group junk.

(** ** GroupByPack32 *)

(* MultiKey.cpp:634-645: backwards over the rows, no range check on the group *)
Fixpoint fixup_loop (rows : list (Z * Z)) (group next : list Z) : option (list Z * list Z) :=
  match rows with
  | [] => Some (group, next)
  | (i, g) :: rows' =>
      match zrd group g with
      | Some x =>
          match zwr next i x, zwr group g i with
          | Some next', Some group' => fixup_loop rows' group' next'
          | _, _ => None
          end
      | None => None
      end
  end.

(* MultiKey.cpp:612-649; the result is the head of each group's list and the next array *)
Definition GroupByPackFixup32 (keys : list Z) (numUnique : Z) (junk : list Z) : option (list Z * list Z) :=
  fixup_loop (rev (numbered keys)) (repeat GB_INVALID_INDEX (Z.to_nat (numUnique + GB_BASE_INDEX))) junk.

(* MultiKey.cpp:721-727 (also 744-748, 766-771, 801-806): follow one list; [fuel] exceeds the size of the
   sort array, so it never runs out before a write falls outside it *)
Fixpoint chain (fuel : nat) (j : Z) (next sorted : list Z) (running : Z) : option (list Z * Z) :=
  match fuel with
  | O => None
  | S fuel' =>
      if j =? GB_INVALID_INDEX then Some (sorted, running)
      else match zwr sorted running j with
           | Some sorted' => match zrd next j with Some j' => chain fuel' j' next sorted' (running + 1) | None => None end
           | None => None
           end
  end.

Record packed := mkPacked { p_sort : list Z; p_first : list Z; p_count : list Z; p_running : Z }.

(* store the list that starts at [j] as the rows of group [g] *)
Definition pack_group (j g : Z) (next : list Z) (p : packed) : option packed :=
  match zwr (p_first p) g (p_running p) with
  | Some first =>
      match chain (S (length (p_sort p))) j next (p_sort p) (p_running p) with
      | Some (sorted, r) =>
          match zwr (p_count p) g (r - p_running p) with
          | Some count => Some (mkPacked sorted first count r)
          | None => None
          end
      | None => None
      end
  | None => None
  end.

(* MultiKey.cpp:706-731: the heads are known *)
Fixpoint pack_heads (heads : list (Z * Z)) (next : list Z) (p : packed) : option packed :=
  match heads with
  | [] => Some p
  | (g, j) :: hs => match pack_group j g next p with Some p' => pack_heads hs next p' | None => None end
  end.

(* MultiKey.cpp:761-785: the heads are found by looking for group 1, 2, ... in row order *)
Fixpoint pack_scan (rows : list (Z * Z)) (next : list Z) (lookfor : Z) (p : packed) : option packed :=
  match rows with
  | [] => Some p
  | (i, g) :: rows' =>
      if g =? lookfor then
        match pack_group i lookfor next p with Some p' => pack_scan rows' next (lookfor + 1) p' | None => None end
      else pack_scan rows' next lookfor p
  end.

(* MultiKey.cpp:790-814: find the first filtered row (group 0) *)
Fixpoint pack_filtered (rows : list (Z * Z)) (next : list Z) (p : packed) : option packed :=
  match rows with
  | [] => Some p
  | (i, g) :: rows' => if g =? 0 then pack_group i 0 next p else pack_filtered rows' next p
  end.

(* MultiKey.cpp:692-697: the first elements of the three arrays are preset *)
Definition pack_start (sjunk fjunk cjunk : list Z) : option packed :=
  match zwr sjunk 0 GB_INVALID_INDEX, zwr fjunk 0 GB_INVALID_INDEX, zwr cjunk 0 0 with
  | Some s, Some f, Some c => Some (mkPacked s f c 0)
  | _, _, _ => None
  end.

(* MultiKey.cpp:841-940 without a next array (it is computed); the three junk lists are the uninitialised results *)
Definition GroupByPack32 (keys : list Z) (numUnique : Z) (sjunk fjunk cjunk njunk : list Z) : option packed :=
  match GroupByPackFixup32 keys numUnique njunk with
  | Some (group, next) =>
      match pack_start sjunk fjunk cjunk with
      | Some p => pack_heads (enum 1 0 group) next p
      | None => None
      end
  | None => None
  end.

(* MultiKey.cpp:841-940 with a next array *)
Definition GroupByPack32_next (keys next : list Z) (numUnique : Z) (sjunk fjunk cjunk : list Z) : option packed :=
  match pack_start sjunk fjunk cjunk with
  | Some p =>
      match zrd keys 0 with
      | Some k0 =>
          let p1 := if k0 =? 0 then pack_group 0 0 next p else Some p in
          match p1 with
          | Some p1 =>
              match pack_scan (numbered keys) next GB_BASE_INDEX p1 with
              | Some p2 => if k0 =? 0 then Some p2 else pack_filtered (numbered keys) next p2
              | None => None
              end
          | None => None
          end
      | None => None
      end
  | None => None
  end.
