(** Model of /repo/src/Merge.cpp: boolean masks and fancy indexing. *)
From Verif Require Import Base Mem SchedModel.
Local Open Scope Z_scope.

(** ** Counting True bytes

    The mask buffer is a function [mb] from byte offsets (relative to the array's data pointer) to
    bytes 0..255; element [i] of the mask is at byte [i * strideBoolean]. *)

(* Merge.cpp:94-109: the inner loop over [n] 32-byte vectors, one byte counter per lane.  Byte
   counters wrap modulo 256; _mm256_min_epu8 with 1 turns a byte into 0 or 1. *)
Fixpoint lane_count (mb : Z -> Z) (n : nat) (p : Z) (acc : Z) : Z :=
  match n with
  | O => acc
  | S n' => lane_count mb n' (p + 32) ((acc + Z.min 1 (mb p)) mod 256)
  end.

(* Merge.cpp:111-142: the lane counters are widened and added (the 16, 32 and 64 bit partial sums cannot
   overflow and are modelled by exact addition) *)
Definition vec_sum (mb : Z -> Z) (n : nat) (p : Z) : Z :=
  zsum (map (fun lane => lane_count mb n (p + Z.of_nat lane) 0) (seq 0 32)).

(* Merge.cpp:77-146: outer loop; [fuel] bounds the number of iterations, [left] = vector_length - i *)
Fixpoint vec_loop (mb : Z -> Z) (fuel : nat) (left p result : Z) : Z :=
  match fuel with
  | O => result
  | S fuel' =>
      if left <=? 0 then result
      else
        let inner := Z.min left 255 in
        vec_loop mb fuel' (left - inner) (p + 32 * inner) (result + vec_sum mb (Z.to_nat inner) p)
  end.

(* Merge.cpp:150-157 (stride 1 remainder) and 162-169 (strided) *)
Fixpoint byte_loop (mb : Z -> Z) (n : nat) (stride p result : Z) : Z :=
  match n with
  | O => result
  | S n' => byte_loop mb n' stride (p + stride) (if mb p =? 0 then result else result + 1)
  end.

(* Merge.cpp:33-172 *)
Definition SumBooleanMask (mb : Z -> Z) (p len stride : Z) : Z :=
  if len <? 0 then 0
  else if stride =? 1 then
    let vl := len / 32 in
    let r := vec_loop mb (Z.to_nat vl) vl p 0 in
    byte_loop mb (Z.to_nat (len - vl * 32)) 1 (p + vl * 32) r
  else byte_loop mb (Z.to_nat len) stride p 0.

(* Merge.cpp:181-246: number of entries of the count array *)
Definition count_entries (c len : nat) : nat := ((Nat.max len 1 + (c - 1)) / c)%nat.

(* Merge.cpp:208-228: the write of one callback *)
Definition count_callback (mb : Z -> Z) (stride : Z) (c : nat) (call : nat * nat) : list (Z * Z) :=
  [(Z.of_nat (fst call / c)%nat, SumBooleanMask mb (Z.of_nat (fst call) * stride) (Z.of_nat (snd call)) stride)].

(* Merge.cpp:181-246 BooleanCount.  [threaded]: DoMultiThreadedChunkWork used the pool; [junk]: the
   uninitialised contents of the workspace.  Result: the count array and the number of chunks. *)
Definition BooleanCount (ord : sched) (threaded : bool) (c : nat) (mb : Z -> Z) (stride : Z) (len : nat) (junk : Z)
  : option (list Z * nat) :=
  match writes (ord _ (concat (map (count_callback mb stride c) (chunk_calls threaded c len))))
               (repeat junk (count_entries c len)) with
  | Some counts => Some (counts, if threaded then count_entries c len else 1%nat)
  | None => None
  end.

(* Merge.cpp:728-760 BooleanSum *)
Definition BooleanSum (ord : sched) (threaded : bool) (c : nat) (mb : Z -> Z) (stride : Z) (len : nat) (junk : Z) : option Z :=
  match BooleanCount ord threaded c mb stride len junk with
  | Some (counts, n) => Some (zsum (firstn n counts))
  | None => None
  end.

(** ** BooleanIndex

    The values buffer is a function [vb] from byte offsets to items; element [i] of the values is at
    byte [i * strideValues].  Output writes are (byte offset, item). *)
Section BooleanIndex.
  Context {A : Type} (mb : Z -> Z) (vb : Z -> A).

  (* one element at a time: Merge.cpp:407-416 and its copies for other item sizes, and the strided
     loops 590-680.  State: mask, input and output positions. *)
  Fixpoint scan (n : nat) (sb sv ostep pb pv po : Z) : list (Z * A) * (Z * Z * Z) :=
    match n with
    | O => ([], (pb, pv, po))
    | S n' =>
        if mb pb =? 0 then scan n' sb sv ostep (pb + sb) (pv + sv) po
        else let '(w, e) := scan n' sb sv ostep (pb + sb) (pv + sv) (po + ostep) in ((po, vb pv) :: w, e)
    end.

  (* little endian 64-bit load *)
  Definition load64 (p : Z) : Z :=
    fold_right (fun j acc => mb (p + Z.of_nat j) + 256 * acc) 0 (seq 0 8).

  (* Merge.cpp:386-394: the eight bytes of a non-zero word, low byte first *)
  Fixpoint word_bytes (n : nat) (bitmask sv ostep pv po : Z) : list (Z * A) * (Z * Z) :=
    match n with
    | O => ([], (pv, po))
    | S n' =>
        if Z.land bitmask 255 =? 0 then word_bytes n' (Z.shiftr bitmask 8) sv ostep (pv + sv) po
        else let '(w, e) := word_bytes n' (Z.shiftr bitmask 8) sv ostep (pv + sv) (po + ostep) in ((po, vb pv) :: w, e)
    end.

  (* Merge.cpp:377-402 and copies: [n] words of eight booleans *)
  Fixpoint word_loop (n : nat) (sv ostep pb pv po : Z) : list (Z * A) * (Z * Z * Z) :=
    match n with
    | O => ([], (pb, pv, po))
    | S n' =>
        let bitmask := load64 pb in
        if bitmask =? 0 then word_loop n' sv ostep (pb + 8) (pv + 8 * sv) po
        else
          let '(w, (pv', po')) := word_bytes 8 bitmask sv ostep pv po in
          let '(w', e) := word_loop n' sv ostep (pb + 8) pv' po' in (w ++ w', e)
    end.

  (* Merge.cpp:366: the item sizes with their own case *)
  Definition std_size (isz : Z) : bool := (isz =? 1) || (isz =? 2) || (isz =? 4) || (isz =? 8).

  (* Merge.cpp:340-686 lambdaBICallback2 on the call (start, length).  In the default case (other item
     sizes) the remainder loop advances the output by strideValues (line 581). *)
  Definition bi_callback (offs : list Z) (c : nat) (isz sb sv : Z) (call : nat * nat) : list (Z * A) :=
    let start := Z.of_nat (fst call) in
    let len := snd call in
    let cnt := nth (fst call / c)%nat offs 0 in
    let pb := start * sb in let pv := start * sv in let po := cnt * isz in
    if sb =? 1 then
      let '(w1, (pb, pv, po)) := word_loop (len / 8)%nat sv isz pb pv po in
      let '(w2, _) := scan (len mod 8)%nat 1 sv (if std_size isz then isz else sv) pb pv po in
      w1 ++ w2
    else fst (scan len sb sv isz pb pv po).

  (* Merge.cpp:248-705.  [ord1], [ord2]: the order in which the writes of the two threaded passes reach
     memory; [d]: contents of the freshly allocated output. *)
  Definition BooleanIndex (ord1 ord2 : sched) (threaded : bool) (c : nat) (isz sb sv : Z) (len : nat)
             (junk : Z) (d : A) : option (list A) :=
    match BooleanCount ord1 threaded c mb sb len junk with
    | None => None
    | Some (counts, n) =>
        let total := zsum (firstn n counts) in
        let offs := excl 0 (firstn n counts) in     (* lines 307-317 *)
        if 0 <? total then
          item_writes isz (ord2 _ (concat (map (bi_callback offs c isz sb sv) (chunk_calls threaded c len))))
                      (repeat d (Z.to_nat total))
        else Some (repeat d (Z.to_nat total))
    end.
End BooleanIndex.

(** ** BooleanToFancy *)

(* Merge.cpp:1619-1632 etc.: the loop over i = start .. start+length-1.  The mask is read at byte [i],
   the stride is not applied.  [cast] is the conversion of the index to the output type. *)
Fixpoint btf_loop (mb : Z -> Z) (cast : Z -> Z) (both : bool) (n : nat) (i po pof : Z) : list (Z * Z) :=
  match n with
  | O => []
  | S n' =>
      if mb i =? 0 then
        if both then (pof, cast i) :: btf_loop mb cast both n' (i + 1) po (pof + 1)
        else btf_loop mb cast both n' (i + 1) po pof
      else (po, cast i) :: btf_loop mb cast both n' (i + 1) (po + 1) pof
  end.

(* Merge.cpp:1586-1672 *)
Definition btf_callback (mb : Z -> Z) (cast : Z -> Z) (both : bool) (offs offsF : list Z) (total : Z) (c : nat) (call : nat * nat) :=
  let k := (fst call / c)%nat in
  btf_loop mb cast both (snd call) (Z.of_nat (fst call)) (nth k offs 0) (total + nth k offsF 0).

(* Merge.cpp:1555-1560: the index type *)
Definition btf_cast (len : nat) (i : Z) : Z := if Z.of_nat len <? 2000000000 then wrap 32 i else i.

(* Merge.cpp:1492-1705.  Returns the index array and the number of True entries. *)
Definition BooleanToFancy (ord1 ord2 : sched) (threaded : bool) (c : nat) (mb : Z -> Z) (sb : Z) (len : nat) (both : bool)
           (junk d : Z) : option (list Z * Z) :=
  match BooleanCount ord1 threaded c mb sb len junk with
  | None => None
  | Some (counts, n) =>
      let total := zsum (firstn n counts) in
      let offs := excl 0 (firstn n counts) in
      (* lines 1520-1547: one entry per chunk of the whole length, also when BooleanCount used one chunk *)
      let offsF := excl 0 (map (fun x => Z.of_nat c - x) (firstn ((len + (c - 1)) / c)%nat counts)) in
      let out := repeat d (if both then len else Z.to_nat total) in
      match writes (ord2 _ (concat (map (btf_callback mb (btf_cast len) both offs offsF total c) (chunk_calls threaded c len)))) out with
      | Some o => Some (o, total)
      | None => None
      end
  end.

(** ** GetItem (MBGet) *)

(* Merge.cpp:1130-1262 GetItemFunction: the element type with which the index array is read is the
   signed type of the same width, also for unsigned index arrays; the function differs. *)
Record index_type := mkIT { itBits : Z; itUnsigned : bool }.

(* the index as read through the signed type *)
Definition read_index (t : index_type) (raw : Z) : Z := wrap (itBits t) raw.

(* item sizes with their own case, Merge.cpp:1133-1150 *)
Definition fixed_size (isz : Z) : bool := (isz =? 1) || (isz =? 2) || (isz =? 4) || (isz =? 8) || (isz =? 16).

Section GetItem.
  Context {A : Type}.
  (* The values array by element number; [zrd] fails outside it. The index array by element number.
     The strides of both are applied uniformly to every element in the code and do not matter here, except
     that the threaded callback also applies the stride of the values to the output (line 1103). *)
  Context (vals : list A) (dflt : A).

  Definition vlen : Z := Z.of_nat (length vals).

  (* Merge.cpp:782-826 GetItemInt, 893-968 GetItemIntVariable: one element; None = read outside *)
  Definition get_signed (index : Z) : option A :=
    if (- vlen <=? index) && (index <? vlen)
    then zrd vals (if 0 <=? index then index else index + vlen)
    else Some dflt.

  (* Merge.cpp:838-885 GetItemUInt *)
  Definition get_unsigned (index : Z) : option A :=
    if (0 <=? index) && (index <? vlen) then zrd vals index else Some dflt.

  (* Merge.cpp:970-1050 GetItemUIntVariable: only the upper bound is checked *)
  Definition get_unsigned_var (index : Z) : option A :=
    if index <? vlen then zrd vals index else Some dflt.

  (* the loop over the output; [step] bytes per iteration.  Writes (byte offset, item); None = a read
     outside the values.  For GetItemUIntVariable the output pointer advances by two items per iteration
     (once in the copy loops, once at lines 1007 and 1042), and the loop stops when it equals the end: [todo]
     is the number of items between the pointer and the end; an odd number never reaches the end. *)
  Fixpoint get_loop (get : Z -> option A) (step : Z) (po : Z) (idx : list Z) : option (list (Z * A)) :=
    match idx with
    | [] => Some []
    | i :: idx' =>
        match get i, get_loop get step (po + step) idx' with
        | Some x, Some w => Some ((po, x) :: w)
        | _, _ => None
        end
    end.
  Fixpoint get_loop2 (get : Z -> option A) (isz po : Z) (todo : nat) (idx : list Z) : option (list (Z * A)) :=
    match todo with
    | O => Some []
    | S O => None                      (* runs past the end of the output *)
    | S (S todo') =>
        match idx with
        | [] => None
        | i :: idx' =>
            match get i, get_loop2 get isz (po + 2 * isz) todo' idx' with
            | Some x, Some w => Some ((po, x) :: w)
            | _, _ => None
            end
        end
    end.

  (* the function selected by GetItemFunction on a run of indices, output from byte [po] *)
  Definition get_run (t : index_type) (isz po : Z) (idx : list Z) : option (list (Z * A)) :=
    let idx := map (read_index t) idx in
    if itUnsigned t then
      if fixed_size isz then get_loop get_unsigned isz po idx
      else get_loop2 get_unsigned_var isz po (length idx) idx
    else get_loop get_signed isz po idx.

  Fixpoint collect {B} (l : list (option (list B))) : option (list B) :=
    match l with
    | [] => Some []
    | Some x :: l' => match collect l' with Some y => Some (x ++ y) | None => None end
    | None :: _ => None
    end.

  Definition slice {B} (l : list B) (s n : nat) : list B := firstn n (skipn s l).

  (* Merge.cpp:1294-1440 MBGet.  Threaded: GetItemCallback, output of block at blockStart * strideValue
     (lines 1101-1113); unthreaded: one call from 0 (line 1386). *)
  Definition MBGet (ord : sched) (threaded : bool) (c : nat) (t : index_type) (isz sv : Z) (idx : list Z) (d : A)
    : option (list A) :=
    let run (call : nat * nat) :=
      get_run t isz (if threaded then Z.of_nat (fst call) * sv else 0) (slice idx (fst call) (snd call)) in
    match collect (map run (chunk_calls threaded c (length idx))) with
    | Some ws => item_writes isz (ord _ ws) (repeat d (length idx))
    | None => None
    end.
End GetItem.

(** ** ReverseShuffle *)

(* Merge.cpp:1902-1925: one callback; [w] is the width of the key type, values stored as (KEYTYPE)i *)
Definition rs_callback (w : Z) (inp : list Z) (call : nat * nat) : list (Z * Z) :=
  concat (map (fun i => let index := nth i inp 0 in
                        if (0 <=? index) && (index <? Z.of_nat (length inp)) then [(index, wrap w (Z.of_nat i))] else [])
              (seq (fst call) (snd call))).

(* Merge.cpp:1936-1985 *)
Definition ReverseShuffle (ord : sched) (threaded : bool) (c : nat) (w : Z) (inp : list Z) (d : Z) : option (list Z) :=
  writes (ord _ (concat (map (rs_callback w inp) (chunk_calls threaded c (length inp))))) (repeat d (length inp)).

(** ** ReIndexGroups *)

(* Merge.cpp:1801-1816: the loop over rows j = starti .. stopi-1 ([n] rows); in place.
   [un]: pUniques, the unique keys from [start] on; [w]: width of the key type.  None = access outside
   the key array or the uniques. *)
Fixpoint ri_loop (w : Z) (ukey : list Z) (start : Z) (n : nat) (j : Z) (ikey : list Z) : option (list Z) :=
  match n with
  | O => Some ikey
  | S n' =>
      match zrd ikey j with
      | None => None
      | Some index =>
          let ulen := Z.max 0 (Z.of_nat (length ukey) - start) in
          let v := if (index <=? 0) || (ulen <? index) then Some 0
                   else match zrd ukey (start + (index - 1)) with Some u => Some (wrap w u) | None => None end in
          match v with
          | None => None
          | Some v => match zwr ikey j v with Some ikey' => ri_loop w ukey start n' (j + 1) ikey' | None => None end
          end
      end
  end.

(* Merge.cpp:1774-1820 ReIndexGroupsMT on partition [t] *)
Definition ri_part (w : Z) (ukey ucut icut : list Z) (t : nat) (ikey : list Z) : option (list Z) :=
  let starti := match t with O => 0 | S t' => nth t' icut 0 end in
  let start := match t with O => 0 | S t' => nth t' ucut 0 end in
  ri_loop w ukey start (Z.to_nat (nth t icut 0 - starti)) starti ikey.

(* Merge.cpp:1829-1890; [order]: the order in which partitions are processed (partitions are modelled as
   atomic; they touch disjoint rows) *)
Fixpoint ReIndexGroups (w : Z) (ukey ucut icut : list Z) (order : list nat) (ikey : list Z) : option (list Z) :=
  match order with
  | [] => Some ikey
  | t :: order' => match ri_part w ukey ucut icut t ikey with
                   | Some ikey' => ReIndexGroups w ukey ucut icut order' ikey'
                   | None => None
                   end
  end.
