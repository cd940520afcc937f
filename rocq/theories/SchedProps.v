(** Property theorems for the thread pool (C01, C02, C03, C04). *)
From Verif Require Import Base SchedModel SchedSpec SchedProofs SegModel SegSpec SegProofs.

(** C01.  The blocks of a chunked call of [len] elements: block number [b] (0-based) starts at
    [block_start] and has [block_len] elements. Every block is non-empty and inside the array; every
    element is in exactly one block; block numbers past the last get no work. *)
Theorem C01_chunks_cover_each_element_once :
  forall call (len w : Z), (0 <= len)%Z ->
  let it := fill call (mkReq len w WORK_ITEM_CHUNK true) in
  (forall b, b < itBlockLast it ->
     (0 <= block_start it b)%Z /\ (0 < block_len it false b)%Z /\
     (block_start it b + block_len it false b <= len)%Z) /\
  (forall i, (0 <= i < len)%Z ->
     exists! b, b < itBlockLast it /\ in_range (block_start it b) (block_len it false b) i) /\
  (forall b, itBlockLast it <= b -> block_len it false b = 0%Z).
Proof. exact chunks_partition. Qed.
Print Assumptions C01_chunks_cover_each_element_once.

Example C01_example :
  let it := fill 1 (mkReq 40000 0 WORK_ITEM_CHUNK true) in
  itBlockLast it = 3 /\
  map (fun b => (block_start it b, block_len it false b)) [0;1;2;3]
    = [(0, 16384); (16384, 16384); (32768, 7232); (49152, 0)]%Z.
Proof. vm_compute. auto. Qed.

(** The same routine called with another block size would be wrong: the length of the last block is
    always taken modulo 0x4000.  (No caller in the code base passes another size in generic mode.) *)
Theorem C01_other_block_sizes_refuted :
  exists len bs, (0 < bs)%Z /\
    let it := fill 1 (mkReq len 0 bs true) in
    exists b, b < itBlockLast it /\ (len < block_start it b + block_len it false b)%Z.
Proof. exact other_block_sizes. Qed.
Print Assumptions C01_other_block_sizes_refuted.

(** C01/C02.  In every reachable state of a pool with any number of workers: no block of any call ever
    runs twice, and only blocks of the call's own range run. *)
Theorem C02_no_block_runs_twice :
  forall n st, reachable n st ->
  NoDup (ran st) /\
  forall k b, In (k, b) (ran st) -> exists r, nth_error (calls st) (k - 1) = Some r /\ b < block_last r.
Proof. exact each_block_once. Qed.
Print Assumptions C02_no_block_runs_twice.

(** C02.  When a threaded call has returned, no worker is inside a callback (so none touches the
    arrays of that call), in whatever way the threads were scheduled and also after interrupts. *)
Theorem C02_no_worker_inside_after_return :
  forall n st pc, reachable n st -> main st = MIdle -> In pc (workers st) -> ~ inside_callback pc.
Proof. exact no_worker_inside. Qed.
Print Assumptions C02_no_worker_inside_after_return.

(** C02.  A worker that is inside a callback uses the arguments of the latest call. *)
Theorem C02_worker_uses_current_call :
  forall n st pc, reachable n st -> In pc (workers st) -> inside_callback pc ->
  exists s, (match pc with WDo _ s' _ | WGot _ s' _ _ | WRun _ s' _ | WFin _ s' => s' = s | _ => False end) /\
   itCall (queue st s) = length (calls st) /\
   exists r, nth_error (calls st) (length (calls st) - 1) = Some r /\
     itTotal (queue st s) = rqLen r /\ itBlockSize (queue st s) = rqBlockSize r /\
     itBlockLast (queue st s) = block_last r.
Proof. exact inside_is_current. Qed.
Print Assumptions C02_worker_uses_current_call.

(** C02.  When a call returns and no interrupt was pending during it, each of its blocks ran exactly once. *)
Theorem C02_all_blocks_done_at_return :
  forall n st r, reachable n st -> main st = MIdle ->
  intr_seen st = false -> nth_error (calls st) (length (calls st) - 1) = Some r ->
  Permutation (ran_in st (length (calls st))) (seq 0 (block_last r)).
Proof. exact all_blocks_at_return. Qed.
Print Assumptions C02_all_blocks_done_at_return.

(** C02.  No deadlock: from every reachable state the threads can run to the return of the call in
    progress (without any new interrupt or call). *)
Theorem C02_call_can_always_return :
  forall n st, reachable n st ->
  exists ls st', Forall thread_label ls /\ exec st ls = Some st' /\ main st' = MIdle.
Proof. exact can_finish. Qed.
Print Assumptions C02_call_can_always_return.

(** Two workers and the main thread share a call of three blocks; at its return nobody is inside,
    and the three blocks ran in an order chosen by the schedule. *)
Example C02_example :
  exists st, exec (init 2 (fun _ => fill 0 (mkReq 0 0 1 true))) example_schedule = Some st /\
    main st = MIdle /\ intr_seen st = false /\ ran st = [(1, 2); (1, 1); (1, 0)] /\ length (calls st) = 1.
Proof. eexists. vm_compute. repeat split. Qed.

(** C03.  Element-wise operations: executing the blocks in the order the schedule chose writes exactly
    [f i] at every index of the array and nothing elsewhere. *)
Theorem C03_threaded_equals_sequential :
  forall (A : Type) n st (f : Z -> A) out len w i,
  reachable n st -> main st = MIdle -> intr_seen st = false -> (0 <= len)%Z ->
  nth_error (calls st) (length (calls st) - 1) = Some (mkReq len w WORK_ITEM_CHUNK true) ->
  run_blocks f (blocks_of (length (calls st)) (mkReq len w WORK_ITEM_CHUNK true)
                  (rev (ran_in st (length (calls st))))) out i =
    if ((0 <=? i) && (i <? len))%Z then f i else out i.
Proof. exact @threaded_elementwise. Qed.
Print Assumptions C03_threaded_equals_sequential.

(** C04.  Bands over bins. *)
Theorem C04_bands_partition_bins :
  forall bins futex maxc, (0 < bins)%Z -> (0 < futex)%Z ->
  let b := segment_bins bins futex maxc in
  contiguous 0 bins b /\
  Z.of_nat (length b) = Z.min bins (if (0 <? maxc)%Z then Z.min futex maxc else futex) /\
  (forall x y, In x b -> In y b -> (Z.abs (band_size x - band_size y) <= 1)%Z).
Proof. exact segment_bins_spec. Qed.
Print Assumptions C04_bands_partition_bins.

Theorem C04_every_bin_in_exactly_one_band :
  forall bins futex maxc i, (0 < bins)%Z -> (0 < futex)%Z -> (0 <= i < bins)%Z ->
  exists j b, nth_error (segment_bins bins futex maxc) j = Some b /\ inband i b /\
    forall j' b', nth_error (segment_bins bins futex maxc) j' = Some b' -> inband i b' -> j' = j.
Proof. exact segment_bins_cover. Qed.
Print Assumptions C04_every_bin_in_exactly_one_band.

Theorem C04_no_bins_no_bands :
  forall bins futex maxc, (bins <= 0)%Z -> segment_bins bins futex maxc = [].
Proof. exact segment_bins_empty. Qed.
Print Assumptions C04_no_bins_no_bands.

Example C04_example : segment_bins 10 16 4 = [(0, 3); (3, 6); (6, 8); (8, 10)]%Z.
Proof. vm_compute. reflexivity. Qed.
