(** The linear-probing hash tables of src/HashLinear.cpp and their users in src/MultiKey.cpp and
    src/HashFunctions.cpp. No proofs in this file.

    A table is a list of slots, one per hash position: [None] when the bit of the position is clear,
    else the fields stored there. The bit field and the table always have HashSize entries, so a position
    outside the list is an access outside both. *)
From Verif Require Import Base Mem Par.
Local Open Scope Z_scope.

(** A result, a C++ exception, or undefined behaviour (an access outside an array). *)
Inductive out (A : Type) : Type := Ret (a : A) | Throw | UB.
Arguments Ret {A} a. Arguments Throw {A}. Arguments UB {A}.

Definition obind {A B} (e : out A) (f : A -> out B) : out B :=
  match e with Ret a => f a | Throw => Throw | UB => UB end.
Notation "'let!' x := e 'in' f" := (obind e (fun x => f)) (at level 200, x pattern, e at level 100, f at level 200, right associativity).
Definition lift {A} (o : option A) : out A := match o with Some a => Ret a | None => UB end.

(** ** Table sizes *)

(* HashLinear.h:6-10 *)
Inductive hash_mode := PRIME | MASK.

(* HashLinear.cpp:67-72 PRIME_NUMBERS, without the final 0 *)
Definition PRIME_NUMBERS : list Z :=
  [53; 97; 193; 389; 769; 1543; 3079; 6151; 12289; 24593; 49157; 98317; 196613; 393241; 786433; 1572869; 3145739; 6291469;
   12582917; 25165843; 50331653; 100663319; 201326611; 402653189; 805306457; 1610612741; 3002954501; 4294967291;
   8589934583; 17179869143; 34359738337; 68719476731].

(* HashLinear.cpp:396-410: the search for a power of two *)
Fixpoint pow2_search (fuel : nat) (i n : Z) : Z :=
  match fuel with
  | O => 0
  | S f => if 2 ^ i <? n then pow2_search f (i + 1) n else 2 ^ i
  end.

(* HashLinear.cpp:378-411 GetHashSize. Exponents from 63 on overflow int64 and are not modelled: 0 is returned. *)
Definition GetHashSize (mode : hash_mode) (n : Z) : Z :=
  match mode with
  | PRIME => match find (fun p => n <? p) PRIME_NUMBERS with Some p => p | None => 0 end
  | MASK => pow2_search 63 0 n
  end.

(* HashLinear.cpp:467-545 AllocMemory: the number of hash positions *)
Definition AllocMemory (mode : hash_mode) (isFloat : bool) (n : Z) : Z :=
  match mode with
  | MASK => let s := GetHashSize MASK (n * (if isFloat then 8 else 2)) in if s <? 65536 then 65536 else s
  | PRIME => GetHashSize PRIME n
  end.

(* HashLinear.cpp:667-670, 1345-1348, 5150-5153 and others: a hint of 0 means the number of rows *)
Definition entries (hint n : Z) : Z := if hint =? 0 then n else hint.

(* HashLinear.cpp:433-447: all bits clear *)
Definition new_table {P} (size : Z) : list (option P) := repeat None (Z.to_nat size).

(** ** Hash functions *)

Definition u64 (x : Z) : Z := x mod 2 ^ 64.
(* [hash & (HashSize - 1)] *)
Definition mask_hash (size h : Z) : Z := Z.land h (size - 1).
(* HashLinear.cpp:1281-1283 HASH_INT1; HashSize is unsigned, so the item is taken modulo 2^64 *)
Definition prime_hash (size h : Z) : Z := u64 h mod size.

(* HashLinear.cpp:224-234 fasthash64_8. [mix] (174-177) is a macro of three statements: in [h ^= mix(v)] and
   [return mix(h)] only its first statement takes part in the expression. *)
Definition fasthash64_8 (v : Z) : Z :=
  let m := 0x880355f21e6d1965 in
  let v1 := Z.lxor v (Z.shiftr v 23) in
  let h := u64 (Z.lxor m v1 * m) in
  Z.lxor h (Z.shiftr h 23).

(* HashLinear.cpp:1319-1330 HASH_FLOAT1, HASH_FLOAT2, HASH_FLOAT3, and 1335 HASH_FLOAT4, on the bits of the item *)
Definition hash_float32 (mode : hash_mode) (size bits : Z) : Z :=
  let h := Z.lxor bits (Z.shiftr bits 20) in
  match mode with PRIME => h mod size | MASK => mask_hash size h end.
Definition hash_float64 (mode : hash_mode) (size bits : Z) : Z :=
  match mode with
  | PRIME => Z.lxor bits (Z.shiftr bits 32) mod size
  | MASK => mask_hash size (fasthash64_8 bits)
  end.

(* IEEE equality of two floats of [w] bits with [e] exponent bits, on their bit patterns *)
Definition is_nan_bits (w e bits : Z) : bool :=
  let mag := Z.land bits (2 ^ (w - 1) - 1) in 2 ^ (w - 1) - 2 ^ (w - 1 - e) <? mag.
Definition feq_bits (w e a b : Z) : bool :=
  negb (is_nan_bits w e a) && negb (is_nan_bits w e b) &&
  ((a =? b) || ((Z.land a (2 ^ (w - 1) - 1) =? 0) && (Z.land b (2 ^ (w - 1) - 1) =? 0))).

(** ** Probing *)

Section Probe.
  Context {P : Type}.

  Inductive probed := Found (slot : Z) (p : P) | Free (slot : Z) | Full.

  (* HashLinear.cpp:558-581: from position [hash], until the bit is clear, the entry matches, or the search is back
     at its start [h]. [m p]: does the entry [p] match? ([None]: comparing reads outside an array.)
     The position moves at most once over the table, so [fuel] = HashSize steps are enough. *)
  Fixpoint probe_loop (fuel : nat) (t : list (option P)) (m : P -> option bool) (h hash : Z) : out probed :=
    match fuel with
    | O => UB
    | S f =>
        let! s := lift (zrd t hash) in
        match s with
        | None => Ret (Free hash)
        | Some p =>
            let! b := lift (m p) in
            if b : bool then Ret (Found hash p)
            else
              let hash' := if hash + 1 >=? Z.of_nat (length t) then 0 else hash + 1 in
              if hash' =? h then Ret Full else probe_loop f t m h hash'
        end
    end.
  (* an empty table has no position to look at *)
  Definition probe (t : list (option P)) (m : P -> option bool) (h : Z) : out probed := probe_loop (length t) t m h h.

  Definition store (t : list (option P)) (slot : Z) (p : P) : list (option P) := upd t (Z.to_nat slot) (Some p).
End Probe.
Arguments probed P : clear implicits.

(** ** Membership *)

Section Member.
  Context {P R1 R2 : Type}.
  (* how an entry is made of row number and row, and how a row of the second (first) array is compared to an entry *)
  Context (mk : Z -> R2 -> P) (m2 : R2 -> P -> option bool) (m1 : R1 -> P -> option bool) (loc : P -> Z).
  (* hash positions; rows that take part ([item == item] for floats) *)
  Context (H2 : R2 -> Z) (H1 : R1 -> Z) (use2 : R2 -> bool) (use1 : R1 -> bool).

  (* HashLinear.cpp:627-659 InternalSetLocation: the first row of each value stays *)
  Definition set_location (t : list (option P)) (i : Z) (x : R2) : out (list (option P)) :=
    let! r := probe t (m2 x) (H2 x) in
    match r with Found _ _ => Ret t | Free s => Ret (store t s (mk i x)) | Full => Throw end.

  (* HashLinear.cpp:1342-1605 MakeHashLocation, 1995-2223 MakeHashLocationFloat, 664-779 MakeHashLocationMK,
     3667-3709 MakeHashLocationString *)
  Fixpoint make_location (t : list (option P)) (i : Z) (xs : list R2) : out (list (option P)) :=
    match xs with
    | [] => Ret t
    | x :: xs' => let! t' := (if use2 x then set_location t i x else Ret t) in make_location t' (i + 1) xs'
    end.

  (* HashLinear.cpp:552-585 InternalGetLocation and the copies of it in IsMember (1697-1919), IsMemberFloat (2229-2471),
     IsMemberMK (1204-1278), InternalGetLocationString and its variants (3792-3956); [bad] is BAD_INDEX *)
  Definition get_location (bad : Z) (t : list (option P)) (x : R1) : out (bool * Z) :=
    if use1 x then
      let! r := probe t (m1 x) (H1 x) in
      match r with Found _ p => Ret (true, loc p) | Free _ => Ret (false, bad) | Full => Throw end
    else Ret (false, bad).

  (* HashLinear.cpp:592-622 InternalGetLocationCategorical: (location + 1, missed) *)
  Definition get_location_cat (t : list (option P)) (x : R1) : out (Z * bool) :=
    if use1 x then
      let! r := probe t (m1 x) (H1 x) in
      match r with Found _ p => Ret (loc p + 1, false) | Free _ => Ret (0, true) | Full => Throw end
    else Ret (0, true).
End Member.

(** All results, or the first exception or undefined behaviour. *)
Fixpoint all_ret {A} (l : list (out A)) : out (list A) :=
  match l with [] => Ret [] | e :: l' => let! x := e in let! xs := all_ret l' in Ret (x :: xs) end.

Section Threaded.
  Context {A B : Type}.
  (* HashLinear.cpp:4352-4413 IsMemberMultiThread and IMMTThreadCallback: each call of the worker looks up the rows
     of one chunk; the table is only read. The two outputs of a row are written together here. *)
  Definition lookup_rows (ord : sched) (threaded : bool) (c : nat) (f : A -> out B) (rows : list A) (d : B) : out (list B) :=
    let! ws := all_ret (concat (map (fun call : nat * nat =>
                 map (fun i => let! x := lift (nth_error rows i) in let! y := f x in Ret (Z.of_nat i, y))
                     (seq (fst call) (snd call))) (chunk_calls threaded c (length rows)))) in
    lift (writes (ord _ ws) (repeat d (length rows))).
End Threaded.

(** *** Single keys: an entry is the value and its row (HashLocation) *)
Section SingleKey.
  Context {K : Type} (keq : K -> K -> bool) (ok : K -> bool) (H : Z -> K -> Z).
  Definition sk_make (size : Z) (b : list K) : out (list (option (K * Z))) :=
    make_location (fun i x => (x, i)) (fun x p => Some (keq (fst p) x)) (H size) ok (new_table size) 0 b.
  Definition sk_get (size bad : Z) (t : list (option (K * Z))) (x : K) : out (bool * Z) :=
    get_location (fun x p => Some (keq (fst p) x)) snd (H size) ok bad t x.
  (* HashLinear.cpp:4425-4501 IsMemberHash32_impl for one item type *)
  Definition is_member (ord : sched) (threaded : bool) (size bad : Z) (a b : list K) : out (list (bool * Z)) :=
    let! t := sk_make size b in lookup_rows ord threaded CHUNK (sk_get size bad t) a (false, 0).
  (* HashLinear.cpp:1611-1675 IsMemberCategorical, 2477-2573 IsMemberFloatCategorical; missed is set by any row *)
  Definition is_member_cat (size : Z) (a b : list K) : out (list Z * bool) :=
    let! t := sk_make size b in
    let! rs := all_ret (map (get_location_cat (fun x p => Some (keq (fst p) x)) snd (H size) ok t) a) in
    Ret (map fst rs, existsb snd rs).
End SingleKey.

(* HashLinear.cpp:1281-1291: the hash position of an integer item of 4 or 8 bytes; [crc] stands for _mm_crc32_u32(0, item) *)
Definition int_hash (crc : Z -> Z) (isz : Z) (mode : hash_mode) (size item : Z) : Z :=
  match mode with
  | PRIME => prime_hash size item
  | MASK => mask_hash size (if isz =? 4 then crc item else fasthash64_8 item)
  end.
(* HashLinear.cpp:1372-1410, 1616-1624: items of 1 and 2 bytes are their own hash position *)
Definition own_hash (size item : Z) : Z := item.

(* HashLinear.cpp:4455-4474 IsMember32 for items of 4 and 8 bytes (their bits as unsigned numbers) *)
Definition IsMember_int (crc : Z -> Z) (isz : Z) ord thr mode hint bad (a b : list Z) : out (list (bool * Z)) :=
  is_member Z.eqb (fun _ => true) (int_hash crc isz mode) ord thr
    (AllocMemory mode false (entries hint (Z.of_nat (length b)))) bad a b.

(* HashLinear.cpp:4475-4493 IsMember32 for float32 and float64 (their bits) *)
Definition IsMember_f32 ord thr mode hint bad (a b : list Z) : out (list (bool * Z)) :=
  is_member (feq_bits 32 8) (fun x => feq_bits 32 8 x x) (hash_float32 mode) ord thr
    (AllocMemory mode true (entries hint (Z.of_nat (length b)))) bad a b.
Definition IsMember_f64 ord thr mode hint bad (a b : list Z) : out (list (bool * Z)) :=
  is_member (feq_bits 64 11) (fun x => feq_bits 64 11 x x) (hash_float64 mode) ord thr
    (AllocMemory mode true (entries hint (Z.of_nat (length b)))) bad a b.

(* HashLinear.cpp:1677-1688 INNER_GET_LOCATION_PERFECT: only the bit is looked at *)
Definition get_perfect {K} (bad : Z) (t : list (option (K * Z))) (item : Z) : out (bool * Z) :=
  let! s := lift (zrd t item) in
  match s with Some p => Ret (true, snd p) | None => Ret (false, bad) end.

(* HashLinear.cpp:4433-4453 IsMember32 for items of 1 and 2 bytes: always mask mode, hint 128 or 32768 *)
Definition IsMember_small (isz : Z) ord thr bad (a b : list Z) : out (list (bool * Z)) :=
  let size := AllocMemory MASK false (if isz =? 1 then 128 else 32768) in
  let! t := sk_make Z.eqb (fun _ => true) own_hash size b in
  lookup_rows ord thr CHUNK (get_perfect bad t) a (false, 0).

(* HashLinear.cpp:4538-4570 IsMemberHashCategorical: items of 1 and 2 bytes, in the caller's mode *)
Definition IsMemberCategorical_small mode hint (a b : list Z) : out (list Z * bool) :=
  is_member_cat Z.eqb (fun _ => true) own_hash (AllocMemory mode false (entries hint (Z.of_nat (length b)))) a b.
(* HashLinear.cpp:4558-4577 IsMemberHashCategorical: items of 4 and 8 bytes *)
Definition IsMemberCategorical_int (crc : Z -> Z) (isz : Z) mode hint (a b : list Z) : out (list Z * bool) :=
  is_member_cat Z.eqb (fun _ => true) (int_hash crc isz mode) (AllocMemory mode false (entries hint (Z.of_nat (length b)))) a b.

(** *** Rows of bytes: an entry is the row number, compared through the key array (HashLocationMK) *)
Section MultiKey.
  Context {K : Type} (keq : K -> K -> bool) (H : Z -> K -> Z).
  (* MEMCMP_NEW with row [last] of [keys] (HashLinear.cpp:74-119) *)
  Definition row_match (keys : list K) (x : K) (last : Z) : option bool := option_map (keq x) (zrd keys last).

  (* HashLinear.cpp:664-779 MakeHashLocationMK, 1204-1278 IsMemberMK, 5506-5548 IsMemberHashMK *)
  Definition is_member_mk (ord : sched) (threaded : bool) (size bad : Z) (a b : list K) : out (list (bool * Z)) :=
    let! t := make_location (fun i _ => i) (row_match b) (H size) (fun _ => true) (new_table size) 0 b in
    lookup_rows ord threaded CHUNK (get_location (row_match b) (fun l => l) (H size) (fun _ => true) bad t) a (false, 0).
End MultiKey.

(** Key rows as bytes; [crc] stands for crchash64 (HashLinear.cpp:133-165). *)
Definition bytes_eqb (a b : list Z) : bool := (length a =? length b)%nat && forallb (fun p => fst p =? snd p) (combine a b).
Definition row_hash (crc : list Z -> Z) (size : Z) (row : list Z) : Z := mask_hash size (crc row).

(* MultiKey.cpp:13-90 RotateArrays: the items of a row, one after the other *)
Fixpoint row_of (cols : list (list (list Z))) (i : nat) : option (list Z) :=
  match cols with
  | [] => Some []
  | c :: cols' => match nth_error c i, row_of cols' i with Some x, Some r => Some (x ++ r) | _, _ => None end
  end.
Definition RotateArrays (cols : list (list (list Z))) (n : nat) : option (list (list Z)) :=
  all_some (map (row_of cols) (seq 0 n)).

(* MultiKey.cpp:1595-1684 MultiKeyIsMember32 on the rotated rows; mask mode *)
Definition MultiKeyIsMember crc ord thr hint bad (a b : list (list Z)) : out (list (bool * Z)) :=
  is_member_mk bytes_eqb (row_hash crc) ord thr (AllocMemory MASK false (entries hint (Z.of_nat (length b)))) bad a b.

(** *** Strings *)

(* HashLinear.cpp:262-269 HASH_STRING, 271-283 HASH_UNICODE: the characters before the first 0 *)
Fixpoint upto0 (s : list Z) : list Z := match s with [] => [] | c :: s' => if c =? 0 then [] else c :: upto0 s' end.

(* HashLinear.cpp:302-314 STRING_MATCH, 285-300 UNICODE_MATCH, [w] characters *)
Fixpoint STRING_MATCH (w : nat) (s1 s2 : list Z) : option bool :=
  match w with
  | O => Some true
  | S w' => match s1, s2 with
            | c1 :: s1', c2 :: s2' => if c1 =? c2 then STRING_MATCH w' s1' s2' else Some false
            | _, _ => None
            end
  end.
(* HashLinear.cpp:316-347 UNICODE_MATCH2, 349-376 STRING_MATCH2; the next character past the end is a read outside *)
Fixpoint STRING_MATCH2 (w1 w2 : nat) (s1 s2 : list Z) : option bool :=
  match w1 with
  | O => match s2 with c2 :: _ => Some (c2 =? 0) | [] => None end
  | S w1' =>
      match w2 with
      | O => match s1 with c1 :: _ => Some (c1 =? 0) | [] => None end
      | S w2' => match s1, s2 with
                 | c1 :: s1', c2 :: s2' => if c1 =? c2 then STRING_MATCH2 w1' w2' s1' s2' else Some false
                 | _, _ => None
                 end
      end
  end.

(* HashLinear.cpp:3667-3709 MakeHashLocationString, 4265-4326 IsMemberString, 4822-4843 IsMemberHashString32:
   widths [w1] and [w2]; the entry keeps a pointer to the string, here the row number. Not threaded. *)
Definition string_entry_match (b : list (list Z)) (cmp : list Z -> list Z -> option bool) (s : list Z) (l : Z) : option bool :=
  match zrd b l with Some s2 => cmp s2 s | None => None end.
Definition IsMemberString (hash : list Z -> Z) mode hint bad (w1 w2 : nat) (a b : list (list Z)) : out (list (bool * Z)) :=
  let size := AllocMemory mode false (entries hint (Z.of_nat (length b))) in
  let H s := mask_hash size (hash (upto0 s)) in
  let! t := make_location (fun i _ => i) (string_entry_match b (STRING_MATCH w2)) H (fun _ => true) (new_table size) 0 b in
  all_ret (map (get_location
                  (string_entry_match b (if (w1 =? w2)%nat then STRING_MATCH w1 else STRING_MATCH2 w2 w1))
                  (fun l => l) H (fun _ => true) bad t) a).

(** ** Grouping *)

Section GroupBy.
  Context {P K : Type}.
  Context (mkp : K -> Z -> Z -> P) (* item, row, key *) (m : K -> P -> option bool) (getk : P -> list Z -> option Z) (H : K -> Z).

  (* The rows done so far: table, pIndexArray, pFirstArray (numUnique is its length). *)
  Definition gb_state := (list (option P) * list Z * list Z)%type.

  (* HashLinear.cpp:2594-2632 GROUPBY_INNER_LOOP; 2973-3090 the loop of GroupBy; [keep]: the filter of the row *)
  Definition gb_step (st : gb_state) (x : K) (keep : bool) : out gb_state :=
    let '(t, idx, first) := st in
    if keep then
      let! r := probe t (m x) (H x) in
      match r with
      | Found _ p => let! k := lift (getk p idx) in Ret (t, idx ++ [k], first)
      | Free s => let k := Z.of_nat (length first) + 1 in
                  Ret (store t s (mkp x (Z.of_nat (length idx)) k), idx ++ [k], first ++ [Z.of_nat (length idx)])
      | Full => Throw
      end
    else Ret (t, idx ++ [0], first).

  Fixpoint gb_loop (st : gb_state) (rows : list (K * bool)) : out gb_state :=
    match rows with [] => Ret st | (x, keep) :: rows' => let! st' := gb_step st x keep in gb_loop st' rows' end.

  (* (pIndexArray, pFirstArray) *)
  Definition group_by (size : Z) (rows : list (K * bool)) : out (list Z * list Z) :=
    let! st := gb_loop (new_table size, [], []) rows in
    let '(_, idx, first) := st in Ret (idx, first).
End GroupBy.

(* the rows of a key array with its filter; no filter keeps every row *)
Definition with_filter {K} (keys : list K) (filt : option (list bool)) : list (K * bool) :=
  match filt with None => map (fun k => (k, true)) keys | Some f => combine keys f end.

(* HashLinear.cpp:2698-2778 GroupByFloat, 2782-2949 GroupByItemSize sizes 4 and 8: an entry is (value, key) *)
Definition group_by_item {K} (keq : K -> K -> bool) (H : Z -> K -> Z) (size : Z) (rows : list (K * bool)) : out (list Z * list Z) :=
  group_by (fun x _ k => (x, k)) (fun x p => Some (keq x (fst p))) (fun p _ => Some (snd p)) (H size) size rows.
(* HashLinear.cpp:2578-2592 GROUPBY_INNER_LOOP_PERFECT: an entry is the key; whatever is in the slot is taken *)
Definition group_by_perfect (size : Z) (rows : list (Z * bool)) : out (list Z * list Z) :=
  group_by (fun _ _ k => k) (fun _ _ => Some true) (fun p _ => Some p) (mask_hash size) size rows.
(* HashLinear.cpp:2956-3099 GroupBy: an entry is the first row of the group *)
Definition group_by_rows {K} (keq : K -> K -> bool) (H : Z -> K -> Z) (size : Z) (rows : list (K * bool)) : out (list Z * list Z) :=
  group_by (fun _ i _ => i) (row_match keq (map fst rows)) (fun p idx => zrd idx p) (H size) size rows.

(* the core type and width of the keys: HashLinear.cpp:5142-5231 GroupByInternal; the table of DoLinearHash*: 5067-5137 *)
Inductive key_type := Float32 | Float64 | Item1 | Item2 | Item4 | Item8.
Definition GroupByInternal (crc : Z -> Z) (kt : key_type) mode hint (keys : list Z) (filt : option (list bool)) : out (list Z * list Z) :=
  let n := entries hint (Z.of_nat (length keys)) in
  let rows := with_filter keys filt in
  match kt with
  | Float32 => group_by_item Z.eqb (fun size x => mask_hash size (Z.lxor x (Z.shiftr x 20))) (AllocMemory mode false n) rows
  | Float64 | Item8 => group_by_item Z.eqb (fun size x => mask_hash size (fasthash64_8 x)) (AllocMemory mode false n) rows
  | Item4 => group_by_item Z.eqb (fun size x => mask_hash size (crc x)) (AllocMemory mode false n) rows
  | Item1 => group_by_perfect (AllocMemory mode false 128) rows
  | Item2 => group_by_perfect (AllocMemory mode false 32768) rows
  end.
(* the same for rows of any other width *)
Definition GroupByInternal_rows (crc : list Z -> Z) mode hint (keys : list (list Z)) (filt : option (list bool)) : out (list Z * list Z) :=
  group_by_rows bytes_eqb (row_hash crc) (AllocMemory mode false (entries hint (Z.of_nat (length keys)))) (with_filter keys filt).

(* HashLinear.cpp:5934-6124 GroupByImpl with cutoffs: each partition is grouped on its own by some thread and writes its
   own part of pIndexArray. Returned: the keys, the first rows (within their partition) of all partitions, and the
   running number of groups. *)
Definition partitions (cut : list Z) : list (Z * Z) := combine (0 :: cut) cut.
Definition slice {A} (l : list A) (a b : Z) : option (list A) :=
  if ((0 <=? a) && (b <=? Z.of_nat (length l)))%Z then Some (firstn (Z.to_nat (b - a)) (skipn (Z.to_nat a) l)) else None.
Fixpoint cumsum (acc : Z) (l : list Z) : list Z := match l with [] => [] | x :: l' => (acc + x) :: cumsum (acc + x) l' end.
Definition GroupByPartitioned {K} (gb : list K -> option (list bool) -> out (list Z * list Z)) (ord : sched)
    (cut : list Z) (keys : list K) (filt : option (list bool)) : out (list Z * list Z * list Z) :=
  let! rs := all_ret (map (fun p : Z * Z =>
               let! ks := lift (slice keys (fst p) (snd p)) in
               let! fs := match filt with None => Ret None | Some f => let! g := lift (slice f (fst p) (snd p)) in Ret (Some g) end in
               let! r := gb ks fs in Ret (fst p, r)) (partitions cut)) in
  let ws := concat (map (fun r => enum 1 (fst r) (fst (snd r))) rs) in
  let! idx := lift (writes (ord _ ws) (repeat 0 (length keys))) in
  Ret (idx, concat (map (fun r => snd (snd r)) rs), cumsum 0 (map (fun r => Z.of_nat (length (snd (snd r)))) rs)).

(** ** Group links, unique rows, rolling keys *)

(* the invalid 32-bit row number *)
Definition GB_INVALID : Z := - 2 ^ 31.

Section Links.
  Context {K : Type} (keq : K -> K -> bool) (H : Z -> K -> Z).

  (* HashLinear.cpp:3106-3318 GroupBySuper; an entry is (Last, UniqueKey). State: table, pIndexArray, pNextArray,
     pUniqueArray, pUniqueCountArray, InvalidLast. *)
  Record super := { s_tab : list (option (Z * Z)); s_idx : list Z; s_next : list Z; s_first : list Z; s_cnt : list Z; s_inv : Z }.
  Definition super_step (size : Z) (keys : list K) (st : super) (x : K) (keep : bool) : out super :=
    let i := Z.of_nat (length (s_idx st)) in
    if keep then
      let! r := probe (s_tab st) (fun p => row_match keq keys x (fst p)) (H size x) in
      match r with
      | Found s (last, u) =>
          let! k := lift (zrd (s_idx st) last) in
          let! next := lift (zwr (s_next st ++ [GB_INVALID]) last i) in
          let! n := lift (zrd (s_cnt st) u) in
          let! cnt := lift (zwr (s_cnt st) u (n + 1)) in
          Ret {| s_tab := store (s_tab st) s (i, u); s_idx := s_idx st ++ [k]; s_next := next;
                 s_first := s_first st; s_cnt := cnt; s_inv := s_inv st |}
      | Free s =>
          let u := Z.of_nat (length (s_first st)) in
          Ret {| s_tab := store (s_tab st) s (i, u); s_idx := s_idx st ++ [u + 1]; s_next := s_next st ++ [GB_INVALID];
                 s_first := s_first st ++ [i]; s_cnt := s_cnt st ++ [1]; s_inv := s_inv st |}
      | Full => Throw
      end
    else
      let! next := (if s_inv st =? GB_INVALID then Ret (s_next st ++ [GB_INVALID])
                    else lift (zwr (s_next st ++ [GB_INVALID]) (s_inv st) i)) in
      Ret {| s_tab := s_tab st; s_idx := s_idx st ++ [0]; s_next := next; s_first := s_first st; s_cnt := s_cnt st; s_inv := i |}.
  Fixpoint super_loop size keys (st : super) (rows : list (K * bool)) : out super :=
    match rows with [] => Ret st | (x, keep) :: rows' => let! st' := super_step size keys st x keep in super_loop size keys st' rows' end.
  (* (keys, next rows, first rows, counts) *)
  Definition GroupBySuper (size : Z) (rows : list (K * bool)) : out (list Z * list Z * list Z * list Z) :=
    let! st := super_loop size (map fst rows) {| s_tab := new_table size; s_idx := []; s_next := []; s_first := []; s_cnt := []; s_inv := GB_INVALID |} rows in
    Ret (s_idx st, s_next st, s_first st, s_cnt st).

  (* HashLinear.cpp:3325-3478 Unique; an entry is (pointer to the key, UniqueKey). State: table, row number, pIndexArray, pCountArray. *)
  Definition uniq_state := (list (option (K * Z)) * Z * list Z * list Z)%type.
  Definition uniq_step (size : Z) (st : uniq_state) (x : K) (keep : bool) : out uniq_state :=
    let '(t, i, first, cnt) := st in
    if keep then
      let! r := probe t (fun p => Some (keq x (fst p))) (H size x) in
      match r with
      | Found _ (_, u) =>
          let! n := lift (zrd cnt u) in
          let! cnt' := lift (zwr cnt u (n + 1)) in
          Ret (t, i + 1, first, cnt')
      | Free s => Ret (store t s (x, Z.of_nat (length first)), i + 1, first ++ [i], cnt ++ [1])
      | Full => Throw
      end
    else Ret (t, i + 1, first, cnt).
  Fixpoint uniq_loop size (st : uniq_state) (rows : list (K * bool)) : out uniq_state :=
    match rows with [] => Ret st | (x, keep) :: rows' => let! st' := uniq_step size st x keep in uniq_loop size st' rows' end.
  Definition Unique (size : Z) (rows : list (K * bool)) : out (list Z * list Z) :=
    let! st := uniq_loop size (new_table size, 0, [], []) rows in
    let '(_, _, first, cnt) := st in Ret (first, cnt).

  (* HashLinear.cpp:3483-3565 MultiKeyRolling; an entry is (Key, Last, RunningCount); table and NumUnique are kept
     from call to call. Result: new table, new NumUnique, bin of each row, running count of each row. *)
  Definition roll_step (size : Z) (st : list (option (K * Z * Z)) * Z) (x : K) : out (list (option (K * Z * Z)) * Z * (Z * Z)) :=
    let '(t, nu) := st in
    let! r := probe t (fun p => Some (keq x (fst (fst p)))) (H size x) in
    match r with
    | Found s (k, bin, n) => Ret (store t s (k, bin, n + 1), nu, (bin, n + 1))
    | Free s => Ret (store t s (x, nu, 1), nu + 1, (nu, 1))
    | Full => Throw
    end.
  Fixpoint MultiKeyRolling (size : Z) (st : list (option (K * Z * Z)) * Z) (rows : list K) :
      out (list (option (K * Z * Z)) * Z * list (Z * Z)) :=
    match rows with
    | [] => Ret (fst st, snd st, [])
    | x :: rows' =>
        let! (t, nu, o) := roll_step size st x in
        let! (t', nu', os) := MultiKeyRolling size (t, nu) rows' in
        Ret (t', nu', o :: os)
    end.

  (* HashLinear.cpp:3570-3662 MakeHashLocationMultiKey; an entry is the last row. Columns: key (from 1), running count,
     previous row, next row, first row. The filter argument is not looked at. *)
  Record links := { l_tab : list (option Z); l_n : Z; l_idx : list Z; l_run : list Z; l_prev : list Z; l_next : list Z; l_first : list Z }.
  Definition links_step (size : Z) (keys : list K) (st : links) (x : K) : out links :=
    let i := Z.of_nat (length (l_idx st)) in
    let! r := probe (l_tab st) (row_match keq keys x) (H size x) in
    match r with
    | Found s last =>
        let! k := lift (zrd (l_idx st) last) in
        let! f := lift (zrd (l_first st) last) in
        let! n := lift (zrd (l_run st) last) in
        let! next := lift (zwr (l_next st ++ [GB_INVALID]) last i) in
        Ret {| l_tab := store (l_tab st) s i; l_n := l_n st; l_idx := l_idx st ++ [k]; l_run := l_run st ++ [n + 1];
               l_prev := l_prev st ++ [last]; l_next := next; l_first := l_first st ++ [f] |}
    | Free s =>
        Ret {| l_tab := store (l_tab st) s i; l_n := l_n st + 1; l_idx := l_idx st ++ [l_n st + 1]; l_run := l_run st ++ [1];
               l_prev := l_prev st ++ [GB_INVALID]; l_next := l_next st ++ [GB_INVALID]; l_first := l_first st ++ [i] |}
    | Full => Throw
    end.
  Fixpoint links_loop size keys (st : links) (rows : list K) : out links :=
    match rows with [] => Ret st | x :: rows' => let! st' := links_step size keys st x in links_loop size keys st' rows' end.
  Definition MakeHashLocationMultiKey (size : Z) (rows : list K) : out links :=
    links_loop size rows {| l_tab := new_table size; l_n := 0; l_idx := []; l_run := []; l_prev := []; l_next := []; l_first := [] |} rows.
End Links.

(* HashLinear.cpp:3496-3504 and 5306-5332 MultiKeyRollingStep2: one MultiKeyRolling after another on the same table.
   Rows wider than 16 bytes are left out: 3490-3494 returns without writing anything. *)
Fixpoint RollingCalls {K} (keq : K -> K -> bool) (H : Z -> K -> Z) (size : Z) (st : list (option (K * Z * Z)) * Z) (calls : list (list K)) :
    out (list (Z * Z)) :=
  match calls with
  | [] => Ret []
  | rows :: calls' =>
      let! (t, nu, os) := MultiKeyRolling keq H size st rows in
      let! os' := RollingCalls keq H size (t, nu) calls' in Ret (os ++ os')
  end.

(* MultiKey.cpp:1544-1568 the second pass of MultiKeyHash: from the last row of each group back along the previous rows.
   [walk] follows the previous rows from [j], at most once over the array. *)
Fixpoint walk (fuel : nat) (prev : list Z) (count last : Z) (j : Z) (bkt lst : list Z) : option (list Z * list Z) :=
  match fuel with
  | O => None
  | S f =>
      match zrd prev j with
      | None => None
      | Some p =>
          if p =? GB_INVALID then Some (bkt, lst)
          else match zwr bkt p count, zwr lst p last with
               | Some bkt', Some lst' => walk f prev count last p bkt' lst'
               | _, _ => None
               end
      end
  end.
Fixpoint second_pass (i : nat) (prev next run : list Z) (bkt lst : list Z) : option (list Z * list Z) :=
  match i with
  | O => Some (bkt, lst)
  | S i' =>
      let zi := Z.of_nat i' in
      match zrd next zi with
      | None => None
      | Some nx =>
          if nx =? GB_INVALID then
            match zrd run zi with
            | None => None
            | Some count =>
                match zwr bkt zi count, zwr lst zi zi with
                | Some bkt', Some lst' =>
                    match walk (S (length prev)) prev count zi zi bkt' lst' with
                    | Some (b, l) => second_pass i' prev next run b l
                    | None => None
                    end
                | _, _ => None
                end
            end
          else second_pass i' prev next run bkt lst
      end
  end.
(* MultiKey.cpp:1496-1587: key, running count, group size, previous, next, first and last row of each row; [d]: what the
   new arrays held; [filt]: the filter of the caller, not looked at *)
Definition MultiKeyHash {K} (keq : K -> K -> bool) (H : Z -> K -> Z) (d : Z) (size : Z) (rows : list K) (filt : option (list bool)) :
    out (list Z * list Z * list Z * list Z * list Z * list Z * list Z) :=
  let! st := MakeHashLocationMultiKey keq H size rows in
  let n := length rows in
  let! (bkt, lst) := lift (second_pass n (l_prev st) (l_next st) (l_run st) (repeat d n) (repeat d n)) in
  Ret (l_idx st, l_run st, bkt, l_prev st, l_next st, l_first st, lst).

(** ** Alignment of two sorted tables *)

Section Align.
  Context {K V : Type} (keq : K -> K -> bool) (H : K -> Z).
  Context (lt eq : V -> V -> bool) (valid : V -> bool).

  (* HashLinear.cpp:880-917, 976-1015: the row stored for the key of row [i] of the first table, else BAD_INDEX *)
  Definition align_lookup (bad : Z) (key1 key2 : list K) (t : list (option Z)) (i : Z) : out Z :=
    let! x := lift (zrd key1 i) in
    let! r := probe t (row_match keq key2 x) (H x) in
    match r with Found _ l => Ret l | Free _ => Ret bad | Full => Throw end.
  (* HashLinear.cpp:921-963: row [j] of the second table replaces the row stored for its key *)
  Definition align_insert (key2 : list K) (t : list (option Z)) (j : Z) : out (list (option Z)) :=
    let! x := lift (zrd key2 j) in
    let! r := probe t (row_match keq key2 x) (H x) in
    match r with Found s _ => Ret (store t s j) | Free s => Ret (store t s j) | Full => Throw end.

  (* HashLinear.cpp:849-1019 FindLastMatchMK, 1025-1195 FindNextMatchMK. [is], [js]: the rows still to visit (0, 1, ...
     going forward in FindLastMatchMK, n-1, n-2, ... in FindNextMatchMK); [before x y]: [x < y] there, [x > y] here.
     Result: the writes (row, location) to pLocationOutput. *)
  Fixpoint align_rest (bad : Z) (key1 key2 : list K) (val1 : list V) (t : list (option Z)) (is : list Z) : out (list (Z * Z)) :=
    match is with
    | [] => Ret []
    | i :: is' =>
        let! v1 := lift (zrd val1 i) in
        let! l := (if valid v1 then align_lookup bad key1 key2 t i else Ret bad) in
        let! ws := align_rest bad key1 key2 val1 t is' in
        Ret ((i, l) :: ws)
    end.
  Fixpoint align_loop (fuel : nat) (exact : bool) (bad : Z) (key1 key2 : list K) (val1 val2 : list V) (t : list (option Z))
      (is js : list Z) : out (list (Z * Z)) :=
    match fuel with
    | O => UB
    | S f =>
        match is, js with
        | i :: is', j :: js' =>
            let! v1 := lift (zrd val1 i) in
            if negb (valid v1) then
              let! ws := align_loop f exact bad key1 key2 val1 val2 t is' js in Ret ((i, bad) :: ws)
            else
              let! v2 := lift (zrd val2 j) in
              if negb (valid v2) then align_loop f exact bad key1 key2 val1 val2 t is js'
              else if lt v1 v2 || (negb exact && eq v1 v2) then
                let! l := align_lookup bad key1 key2 t i in
                let! ws := align_loop f exact bad key1 key2 val1 val2 t is' js in Ret ((i, l) :: ws)
              else
                let! t' := align_insert key2 t j in
                align_loop f exact bad key1 key2 val1 val2 t' is js'
        | _, _ => align_rest bad key1 key2 val1 t is
        end
    end.
End Align.

Definition zseq (n : nat) : list Z := map Z.of_nat (seq 0 n).
(* MultiKey.cpp:1695-1841 MultiKeyAlign32, HashLinear.cpp:4885-4973 AlignHashMK32 *)
Definition MultiKeyAlign {K V} (keq : K -> K -> bool) (H : Z -> K -> Z) (lt eq : V -> V -> bool) (valid : V -> bool)
    (forward exact : bool) (bad d : Z) (key1 key2 : list K) (val1 val2 : list V) : out (list Z) :=
  let size := AllocMemory MASK false (Z.of_nat (length key2)) in
  let n1 := length key1 in
  let n2 := length key2 in
  let dir (n : nat) := if forward then rev (zseq n) else zseq n in
  let cmp x y := if forward then lt y x else lt x y in
  let! ws := align_loop keq (H size) cmp eq valid (n1 + n2 + 1) exact bad key1 key2 val1 val2 (new_table size) (dir n1) (dir n2) in
  lift (writes ws (repeat d n1)).

(* HashLinear.cpp:786-844 FindLastMatchCategorical: keys index [loc] directly; note pKey2[i] *)
Section AlignCat.
  Context {V : Type} (lt : V -> V -> bool).
  Definition cat_lookup (bad : Z) (key1 : list Z) (loc : list Z) (i : Z) : out Z :=
    let! k := lift (zrd key1 i) in
    let! l := lift (zrd loc k) in
    Ret (if l =? -1 then bad else l).
  Fixpoint cat_loop (fuel : nat) (bad : Z) (key1 key2 : list Z) (val1 val2 : list V) (loc : list Z) (i j : Z) (res : list Z) : out (list Z) :=
    match fuel with
    | O => UB
    | S f =>
        if i <? Z.of_nat (length key1) then
          if j <? Z.of_nat (length key2) then
            let! v1 := lift (zrd val1 i) in
            let! v2 := lift (zrd val2 j) in
            if lt v1 v2 then
              let! l := cat_lookup bad key1 loc i in cat_loop f bad key1 key2 val1 val2 loc (i + 1) j (res ++ [l])
            else
              let! k := lift (zrd key2 i) in
              let! loc' := lift (zwr loc k j) in cat_loop f bad key1 key2 val1 val2 loc' i (j + 1) res
          else let! l := cat_lookup bad key1 loc i in cat_loop f bad key1 key2 val1 val2 loc (i + 1) j (res ++ [l])
        else Ret res
    end.
  Definition FindLastMatchCategorical (bad : Z) (key1 key2 : list Z) (val1 val2 : list V) (uniques : nat) : out (list Z) :=
    cat_loop (length key1 + length key2 + 1) bad key1 key2 val1 val2 (repeat (-1) uniques) 0 0 [].
End AlignCat.

(** ** Fixing up categorical membership (HashFunctions.cpp) *)

(* HashFunctions.cpp:218-310 FindFirstOccurence; [inv] is the invalid int32. An error message is [Throw]. *)
Fixpoint reverse_map (inv : Z) (uniq : list Z) (i : Z) (rmap : list Z) (matched : Z) : out (list Z * Z) :=
  match uniq with
  | [] => Ret (rmap, matched)
  | v :: uniq' =>
      if v =? inv then reverse_map inv uniq' (i + 1) rmap matched
      else match zwr rmap v i with
           | Some rmap' => reverse_map inv uniq' (i + 1) rmap' (matched + 1)
           | None => Throw
           end
  end.
Fixpoint first_occ (inv base : Z) (rmap : list Z) (bins : list Z) (i : Z) (reidx : list Z) (matched : Z) : out (list Z) :=
  match bins with
  | [] => Ret reidx
  | v :: bins' =>
      if v >=? base then
        let! l := lift (zrd rmap (v - base)) in
        if l >=? 0 then
          let! r := lift (zrd reidx l) in
          if r =? inv then
            if i >=? 2 ^ 31 - 1 then Throw
            else
              let! reidx' := lift (zwr reidx l i) in
              if matched - 1 <=? 0 then Ret reidx' else first_occ inv base rmap bins' (i + 1) reidx' (matched - 1)
          else first_occ inv base rmap bins' (i + 1) reidx matched
        else first_occ inv base rmap bins' (i + 1) reidx matched
      else first_occ inv base rmap bins' (i + 1) reidx matched
  end.
Definition FindFirstOccurence (inv base : Z) (bins uniq : list Z) (nu2 : nat) : out (list Z) :=
  let! (rmap, matched) := reverse_map inv uniq 0 (repeat (-1) nu2) 0 in
  let reidx := repeat inv (length uniq) in
  if matched >? 0 then first_occ inv base rmap bins 0 reidx matched else Ret reidx.

(* HashFunctions.cpp:320-348 FinalMatch *)
Definition final_row (inv base : Z) (reidx : list Z) (v : Z) : out (bool * Z) :=
  if v >=? base then
    let! f := lift (zrd reidx (v - base)) in Ret (negb (f =? inv), f)
  else Ret (false, inv).
(* HashFunctions.cpp:366-483 IsMemberCategoricalFixup *)
Definition IsMemberCategoricalFixup (inv base1 base2 : Z) (bins1 bins2 uniq : list Z) (nu2 : nat) : out (list (bool * Z)) :=
  let! reidx := FindFirstOccurence inv base2 bins2 uniq nu2 in
  all_ret (map (final_row inv base1 reidx) bins1).
