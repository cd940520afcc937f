(** Model of IsMember32 (HashLinear.cpp) and IsMemberCategorical (HashFunctions.cpp) of /repo/src from their arguments to their results: the checks of
    the arguments, the choice of the function for the type and the size of the items, the type of the index, and the arrays that are returned.
    The hash tables are those of HashModel.
    Simplified: an array has one dimension (arrays of more are read as one row after the other); memory can always be had; hash modes other than 1 and 2
    are not modelled (undefined); an exception in a worker thread ends the process and is undefined here, whichever thread it hits; IsMember32 with
    RT_NEW_HASH=1 is MtgModel. An error of Python is [Throw]. No proofs in this file. *)
From Verif Require Import Base Mem Par HashModel.
Local Open Scope Z_scope.

(** ** Arrays *)
(* the number of numpy's type, bytes of an item, length, distance of two elements in bytes; the block of memory and where in it the array begins *)
Record array := mkArr { a_dtype : Z; a_item : Z; a_len : Z; a_stride : Z; a_base : Z; a_mem : list Z }.

Definition bytes_at (mem : list Z) (p n : Z) : option (list Z) := all_some (map (fun i => zrd mem (p + Z.of_nat i)) (seq 0 (Z.to_nat n))).
Definition items_at (item step : Z) (a : array) : option (list (list Z)) :=
  all_some (map (fun k => bytes_at (a_mem a) (a_base a + Z.of_nat k * step) item) (seq 0 (Z.to_nat (a_len a)))).
(* PyArray_BYTES and an index: HashLinear.cpp:5766-5767, HashFunctions.cpp:137-138.  The strides of the array are not looked at. *)
Definition raw (item : Z) (a : array) : option (list (list Z)) := items_at item item a.

(* the bytes of an item as a number, the first byte the lowest *)
Definition word (s : list Z) : Z := fold_right (fun b v => b + 256 * v) 0 s.
(* the characters of 4 bytes of a unicode string *)
Fixpoint chars (n : nat) (s : list Z) : list Z := match n with O => [] | S n' => word (firstn 4 s) :: chars n' (skipn 4 s) end.

(* what the machine adds: whether there are worker threads, the order of their writes, _mm_crc32_u32 from 0, fasthash64, the CRC of characters,
   and the contents of new memory *)
Record machine := mkMach { m_on : bool; m_ord : sched; m_crc : Z -> Z; m_fast : list Z -> Z; m_crcs : list Z -> Z; m_junk : nat -> Z -> Z }.

(* MathWorker.h:381-396, MathThreads.h:148-166: GetWorkItem gives none below 32768 rows *)
Definition threaded (m : machine) (n : Z) : bool := m_on m && (32768 <=? n).
Definition in_threads {B} (thr : bool) (e : out B) : out B := match e with Throw => if thr then UB else Throw | _ => e end.

(* HashLinear.h:6-10 *)
Definition mode_of (h : Z) : option hash_mode := match h with 1 => Some PRIME | 2 => Some MASK | _ => None end.

(** ** Types of the index *)
(* numpy_traits.h:384-441 index_size_type; the same limits in HashLinear.cpp:5368-5400 and 5413-5443 *)
Definition index_size_type (n : Z) : Z := if n <? 100 then 1 else if n <? 30000 then 3 else if n <? 2000000000 then 5 else 7.
Definition index_width (d : Z) : Z := match d with 1 => 8 | 3 => 16 | 5 => 32 | _ => 64 end.
(* HashLinear.cpp:1716: (U)(1LL << (sizeof(U) * 8 - 1)) *)
Definition BAD_INDEX (d : Z) : Z := - 2 ^ (index_width d - 1).

(** ** Numbers *)
Section Single.
  Context (m : machine) (keq : Z -> Z -> bool) (ok : Z -> bool) (H : Z -> Z -> Z).
  (* for (U i = 0; i < arraySize; i++): the counter does not reach the length *)
  Definition counted {B} (w n : Z) (e : out B) : out B := if n <? 2 ^ (w - 1) then e else UB.
  (* HashLinear.cpp:4351-4413: the table is made by the caller and searched by the threads *)
  Definition find_members (w size : Z) (a b : list Z) (get : list (option (Z * Z)) -> Z -> out (bool * Z)) : out (list (bool * Z)) :=
    let! t := counted w (Z.of_nat (length b)) (sk_make keq ok H size b) in
    in_threads (threaded m (Z.of_nat (length a)))
      (lookup_rows (m_ord m) (threaded m (Z.of_nat (length a))) CHUNK (get t) a (false, 0)).
  Definition members_of (w size bad : Z) (a b : list Z) : out (list (bool * Z)) := find_members w size a b (sk_get keq ok H size bad).
  (* HashLinear.cpp:1611-1675, 2477-2573; for (U i = 0; ...) also over the first array *)
  Definition categories_of (w size : Z) (a b : list Z) : out (list Z * bool) :=
    counted w (Z.of_nat (length b)) (counted w (Z.of_nat (length a)) (is_member_cat keq ok H size a b)).
End Single.

(* HashLinear.cpp:4425-4501 IsMemberHash32_impl: [None]: no case for the size, nothing is written *)
Definition IsMemberHash32 (m : machine) (d sizeType : Z) (mode : hash_mode) (hint : Z) (a b : list Z) : out (option (list (bool * Z))) :=
  let w := index_width d in let bad := BAD_INDEX d in let n := entries hint (Z.of_nat (length b)) in
  let some e := let! r := e in Ret (Some r) in
  match sizeType with
  | 1 | 2 => some (find_members m Z.eqb (fun _ => true) own_hash w (AllocMemory MASK false (if sizeType =? 1 then 128 else 32768)) a b (get_perfect bad))
  | 4 | 8 => some (members_of m Z.eqb (fun _ => true) (int_hash (m_crc m) sizeType mode) w (AllocMemory mode false n) bad a b)
  | 104 => some (members_of m (feq_bits 32 8) (fun x => feq_bits 32 8 x x) (hash_float32 mode) w (AllocMemory mode true n) bad a b)
  | 108 => some (members_of m (feq_bits 64 11) (fun x => feq_bits 64 11 x x) (hash_float64 mode) w (AllocMemory mode true n) bad a b)
  | _ => Ret None
  end.

(* HashLinear.cpp:4533-4609 IsMemberHashCategorical, 4620-4697 IsMemberHashCategorical64.  116: MakeHashLocationFloat and IsMemberFloatCategorical have
   no case for 16 bytes; missed stays 0 *)
Definition IsMemberHashCategorical (m : machine) (d sizeType : Z) (mode : hash_mode) (hint : Z) (a b : list Z) : out (option (list Z * bool)) :=
  let w := index_width d in let n := entries hint (Z.of_nat (length b)) in
  let some e := let! r := e in Ret (Some r) in
  match sizeType with
  | 1 | 2 => some (categories_of Z.eqb (fun _ => true) own_hash w (AllocMemory mode false n) a b)
  | 4 | 8 => some (categories_of Z.eqb (fun _ => true) (int_hash (m_crc m) sizeType mode) w (AllocMemory mode false n) a b)
  | 104 => some (categories_of (feq_bits 32 8) (fun x => feq_bits 32 8 x x) (hash_float32 mode) w (AllocMemory mode true n) a b)
  | 108 => some (categories_of (feq_bits 64 11) (fun x => feq_bits 64 11 x x) (hash_float64 mode) w (AllocMemory mode true n) a b)
  | _ => Ret None
  end.

(** ** Text *)
(* the characters of the items and their number in each *)
Definition text_width (unicode : bool) (item : Z) : nat := Z.to_nat (if unicode then item / 4 else item).
Definition text_of (unicode : bool) (a : array) : option (list (list Z)) :=
  if unicode then option_map (map (chars (text_width true (a_item a)))) (raw (a_item a) a) else raw (a_item a) a.
Definition text_hash (m : machine) (unicode : bool) : list Z -> Z := if unicode then m_crcs m else m_fast m.

(* HashLinear.cpp:4046-4256 IsMemberStringCategorical, 4764-4818 IsMemberHashStringCategorical, 4726-4761 IMSThreadCallback;
   the location is stored as U and 1 is added to it *)
Definition cat_text (w : Z) (r : Z * bool) : Z * bool := (wrap w (fst r), snd r).
Definition IsMemberHashStringCategorical (m : machine) (hash : list Z -> Z) (w : Z) (mode : hash_mode) (hint : Z) (w1 w2 : nat) (a b : list (list Z))
  : out (list Z * bool) :=
  let size := AllocMemory mode false (entries hint (Z.of_nat (length b))) in
  let H s := mask_hash size (hash (upto0 s)) in
  let thr := threaded m (Z.of_nat (length a)) in
  let! t := make_location (fun i _ => i) (string_entry_match b (STRING_MATCH w2)) H (fun _ => true) (new_table size) 0 b in
  let! rs := in_threads thr (lookup_rows (m_ord m) thr CHUNK
               (get_location_cat (string_entry_match b (if (w1 =? w2)%nat then STRING_MATCH w1 else STRING_MATCH2 w2 w1)) (fun l => l) H (fun _ => true) t)
               a (0, false)) in
  Ret (map (fun r => fst (cat_text w r)) rs, existsb snd rs).

(** ** The calls from Python *)
(* TypeSystem.h:13-31 *)
Definition normalize_dtype (d item : Z) : Z := match d with 7 => if item =? 4 then 5 else 9 | 8 => if item =? 4 then 6 else 10 | _ => d end.
(* HashLinear.cpp:5607-5622 equivalent_type *)
Definition equivalent_type (item : Z) : option Z := match item with 1 => Some 1 | 2 => Some 3 | 4 => Some 5 | 8 => Some 7 | _ => None end.

Definition new_array (m : machine) (id : nat) (n : Z) : list Z := map (m_junk m id) (zseq (Z.to_nat n)).
(* the flags, the type of the index, the index *)
Record found := mkFound { f_flags : list Z; f_dtype : Z; f_index : list Z }.
Definition found_of (d : Z) (rs : list (bool * Z)) : found :=
  mkFound (map (fun r : bool * Z => if fst r then 1 else 0) rs) d (map (fun r : bool * Z => wrap (index_width d) (snd r)) rs).

(* HashLinear.cpp:5683-5905; [args]: the hash mode and the hint, if given *)
Definition PyIsMember32 (m : machine) (a1 a2 : array) (args : option (Z * option Z)) : out found :=
  let hmode := match args with Some (h, _) => h | None => 2 end in
  let hint := match args with Some (_, Some n) => n | _ => 0 end in
  let d1 := normalize_dtype (a_dtype a1) (a_item a1) in let d2 := normalize_dtype (a_dtype a2) (a_item a2) in
  if negb (d1 =? d2) then Throw
  else if a_item a1 =? 0 then Throw
  else if d1 =? 17 then Throw
  else
    let! mode := lift (mode_of hmode) in
    let n1 := a_len a1 in let n2 := a_len a2 in
    let dtype := index_size_type n2 in
    let d := if (18 <=? d1) && (a_item a1 =? a_item a2) then match equivalent_type (a_item a1) with Some t => t | None => d1 end else d1 in
    if 18 <=? d then
      let di := index_size_type (if n1 <? n2 then n2 else n1) in                      (* HashLinear.cpp:5364-5400 *)
      let uni := d =? 19 in
      let! a := lift (text_of uni a1) in
      let! b := lift (text_of uni a2) in
      let! rs := IsMemberString (text_hash m uni) mode hint (BAD_INDEX di) (text_width uni (a_item a1)) (text_width uni (a_item a2)) a b in
      Ret (found_of di rs)
    else
      let sizeType := if (d =? 11) || (d =? 12) then a_item a1 + 100 else a_item a1 in
      let! a := lift (raw (a_item a1) a1) in
      let! b := lift (raw (a_item a1) a2) in
      let! r := IsMemberHash32 m dtype sizeType mode hint (map word a) (map word b) in
      match r with
      | Some rs => Ret (found_of dtype rs)
      | None => Ret (mkFound (new_array m 0 n1) dtype (new_array m 1 n1))
      end.

(* whether a value was missed, the type of the index, the index *)
Record categories := mkCats { c_missed : bool; c_dtype : Z; c_index : list Z }.
(* HashFunctions.cpp:74-108: CASE_NPY_INT32 ... CASE_NPY_UINT64 of CommonInc.h:110-117 *)
Definition common_dtype (d : Z) : Z := match d with 9 => 7 | 10 => 8 | _ => d end.

(* HashFunctions.cpp:48-201 *)
Definition PyIsMemberCategorical (m : machine) (a1 a2 : array) (hmode hint : Z) : out categories :=
  let d := common_dtype (a_dtype a1) in
  if negb (d =? common_dtype (a_dtype a2)) then Throw
  else if a_item a1 =? 0 then Throw
  else if d =? 17 then Throw
  else
    let! mode := lift (mode_of hmode) in
    let n1 := a_len a1 in
    if 18 <=? d then
      let di := index_size_type (a_len a2) in
      let uni := d =? 19 in
      let! a := lift (text_of uni a1) in
      let! b := lift (text_of uni a2) in
      let! r := IsMemberHashStringCategorical m (text_hash m uni) (index_width di) mode hint (text_width uni (a_item a1)) (text_width uni (a_item a2)) a b in
      Ret (mkCats (snd r) di (fst r))
    else
      let sizeType := if (d =? 11) || (d =? 12) || (d =? 13) then a_item a1 + 100 else a_item a1 in
      let di := if n1 <? 2100000000 then 5 else 7 in
      let! a := lift (raw (a_item a1) a1) in
      let! b := lift (raw (a_item a1) a2) in
      let! r := IsMemberHashCategorical m di sizeType mode hint (map word a) (map word b) in
      match r with
      | Some (idx, missed) => Ret (mkCats missed di (map (wrap (index_width di)) idx))
      | None => Ret (mkCats false di (new_array m 0 n1))
      end.
