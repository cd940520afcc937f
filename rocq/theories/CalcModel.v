(** src/BitCount.cpp, src/rt_math.h, src/CRC32.cpp, src/TimeWindow.cpp. No proofs in this file. *)
From Verif Require Import Num Base Mem Par.
Local Open Scope Z_scope.

(** ** Counting bits *)

(* BitCount.cpp:9-24 *)
Definition nibble_bitcount : list Z := [0; 1; 1; 2; 1; 2; 2; 3; 1; 2; 2; 3; 2; 3; 3; 4].
Definition nibble (n : Z) : option Z := zrd nibble_bitcount n.

(* _mm_popcnt_u32 and _mm_popcnt_u64 *)
Definition popcnt (w n : Z) : Z := Z.of_nat (countb (fun i => Z.testbit n (Z.of_nat i)) (seq 0 (Z.to_nat w))).

Definition add4 (a b c d : option Z) : option Z :=
  match a, b, c, d with Some a, Some b, Some c, Some d => Some (a + b + c + d) | _, _, _, _ => None end.
(* BitCount.cpp:47-91: one item of [isz] bytes, read as unsigned; [None]: unsupported size (or a read outside the table) *)
Definition bit_count (isz n : Z) : option Z :=
  if isz =? 1 then add4 (nibble (Z.shiftr n 4)) (nibble (Z.land n 15)) (Some 0) (Some 0)
  else if isz =? 2 then add4 (nibble (Z.shiftr n 12)) (nibble (Z.land (Z.shiftr n 8) 15)) (nibble (Z.land (Z.shiftr n 4) 15)) (nibble (Z.land n 15))
  else if isz =? 4 then Some (popcnt 32 n)
  else if isz =? 8 then Some (popcnt 64 n)
  else None.
(* BitCount.cpp:38-43: booleans *)
Definition bit_count_bool (n : Z) : Z := if n =? 0 then 0 else 1.
(* BitCount.cpp:7-94 on the items (numbers of either sign); the cast to unsigned is [mod] *)
Definition BitCount (isBool : bool) (isz : Z) (items : list Z) : option (list Z) :=
  if isBool then Some (map (fun n => bit_count_bool (n mod 2 ^ 8)) items)
  else all_some (map (fun n => bit_count isz (n mod 2 ^ (8 * isz))) items).

(** ** Minimum and maximum that pass invalid values on *)

(* rt_math.h:19-40 and 50-71 min_with_nan_passthru, max_with_nan_passthru for floating point *)
Definition fmin_pass (x y : fl) : fl := let blended := if is_nan x then x else y in if flt x blended then x else blended.
Definition fmax_pass (x y : fl) : fl := let blended := if is_nan x then x else y in if flt blended x then x else blended.
(* the same for integers with smallest value [lo], largest value [hi] and invalid value [inv] *)
Definition imin_pass (lo inv x y : Z) : Z :=
  if inv =? lo then Z.min x y else if negb (x =? inv) && negb (y =? inv) then Z.min x y else inv.
Definition imax_pass (hi inv x y : Z) : Z :=
  if inv =? hi then Z.max x y else if negb (x =? inv) && negb (y =? inv) then Z.max x y else inv.

(** ** CRC-64 *)

(* CRC32.cpp:13, 16 *)
Definition ISO : Z := 0xD800000000000000.
Definition ECMA : Z := 0xC96C5795D7870F42.
Definition ones64 : Z := 2 ^ 64 - 1.

(* CRC32.cpp:27-30: one bit *)
Definition crc_bit (poly crc : Z) : Z := if Z.land crc 1 =? 1 then Z.lxor (Z.shiftr crc 1) poly else Z.shiftr crc 1.
(* CRC32.cpp:19-37 makeTable *)
Definition makeTable (poly : Z) : list Z := map (fun i => Nat.iter 8 (crc_bit poly) (Z.of_nat i)) (seq 0 256).
(* CRC32.cpp:61 and 106 (with a byte mixed in before): one byte through the table *)
Definition tab_next (t : list Z) (crc : Z) : option Z := option_map (fun x => Z.lxor x (Z.shiftr crc 8)) (zrd t (Z.land crc 0xff)).
Fixpoint tab_iter (t : list Z) (j : nat) (crc : Z) : option Z :=
  match j with O => Some crc | S j' => match tab_iter t j' crc with Some c => tab_next t c | None => None end end.
(* CRC32.cpp:52-67 makeSlicingBy8Table: row [j] of the helper table *)
Definition helper_row (t : list Z) (j : nat) : option (list Z) :=
  all_some (map (fun i => match zrd t (Z.of_nat i) with Some c => tab_iter t j c | None => None end) (seq 0 256)).
Definition makeSlicingBy8Table (t : list Z) : option (list (list Z)) := all_some (map (helper_row t) (seq 0 8)).

Definition look (h : list (list Z)) (j : nat) (i : Z) : option Z := match nth_error h j with Some t => zrd t i | None => None end.
Definition oxor (a b : option Z) : option Z := match a, b with Some a, Some b => Some (Z.lxor a b) | _, _ => None end.

(* CRC32.cpp:92-93 *)
Definition word8 (p0 p1 p2 p3 p4 p5 p6 p7 : Z) : Z :=
  Z.lor (Z.lor (Z.lor (Z.lor (Z.lor (Z.lor (Z.lor p0 (Z.shiftl p1 8)) (Z.shiftl p2 16)) (Z.shiftl p3 24)) (Z.shiftl p4 32))
    (Z.shiftl p5 40)) (Z.shiftl p6 48)) (Z.shiftl p7 56).
(* CRC32.cpp:94-96 *)
Definition slice8 (h : list (list Z)) (crc : Z) : option Z :=
  oxor (oxor (oxor (oxor (oxor (oxor (oxor
    (look h 7 (Z.land crc 0xff)) (look h 6 (Z.land (Z.shiftr crc 8) 0xff))) (look h 5 (Z.land (Z.shiftr crc 16) 0xff)))
    (look h 4 (Z.land (Z.shiftr crc 24) 0xff))) (look h 3 (Z.land (Z.shiftr crc 32) 0xff))) (look h 2 (Z.land (Z.shiftr crc 40) 0xff)))
    (look h 1 (Z.land (Z.shiftr crc 48) 0xff))) (look h 0 (Z.shiftr crc 56)).
(* CRC32.cpp:89-100: eight bytes at a time; the bytes that are left *)
Fixpoint slice_loop (h : list (list Z)) (crc : Z) (p : list Z) : option (Z * list Z) :=
  match p with
  | p0 :: p1 :: p2 :: p3 :: p4 :: p5 :: p6 :: p7 :: p' =>
      match slice8 h (Z.lxor crc (word8 p0 p1 p2 p3 p4 p5 p6 p7)) with Some c => slice_loop h c p' | None => None end
  | _ => Some (crc, p)
  end.
(* CRC32.cpp:104-108: byte by byte *)
Fixpoint byte_loop (t : list Z) (crc : Z) (p : list Z) : option Z :=
  match p with
  | [] => Some crc
  | b :: p' => match zrd t (Z.lxor (Z.land crc 0xff) b) with Some x => byte_loop t (Z.lxor x (Z.shiftr crc 8)) p' | None => None end
  end.
(* CRC32.cpp:74-111 CalculateCRC64 with a table that belongs to the helper table *)
Definition CalculateCRC64 (h : list (list Z)) (crc : Z) (p : list Z) : option Z :=
  match h with
  | [] => None
  | t :: _ =>
      let c := Z.lxor crc ones64 in
      match (if 64 <=? Z.of_nat (length p) then slice_loop h c p else Some (c, p)) with
      | Some (c', p') => option_map (fun c'' => Z.lxor c'' ones64) (byte_loop t c' p')
      | None => None
      end
  end.
(* CRC32.cpp:116-137 CalculateCRC; the result is shown as a signed number *)
Definition CalculateCRC (p : list Z) : option Z :=
  match makeSlicingBy8Table (makeTable ECMA) with Some h => option_map (wrap 64) (CalculateCRC64 h 0 p) | None => None end.

(** ** Time windows *)

Section TimeWindow.
  Context {T U : Type} (conv : T -> U) (op : U -> T -> U).

  (* TimeWindow.cpp:39-53, 70-84: the rows before [i], nearest first; the difference of two times must fit into 64 bits *)
  Fixpoint tw_back (vals : list T) (times : list Z) (ti delta : Z) (k : nat) (acc : U) : option U :=
    match k with
    | O => Some acc
    | S j =>
        match nth_error times j, nth_error vals j with
        | Some tj, Some x =>
            let d := ti - tj in
            if (- 2 ^ 63 <=? d) && (d <? 2 ^ 63) then
              if d <=? delta then tw_back vals times ti delta j (op acc x) else Some acc
            else None
        | _, _ => None
        end
    end.
  Definition tw_row (vals : list T) (times : list Z) (delta : Z) (i : nat) : option U :=
    match nth_error times i, nth_error vals i with
    | Some ti, Some x => tw_back vals times ti delta i (conv x)
    | _, _ => None
    end.
  (* TimeWindow.cpp:27-87 TimeWindowSum, TimeWindowProd, called for chunks of rows (237) *)
  Definition TimeWindow (ord : sched) (threaded : bool) (vals : list T) (times : list Z) (delta : Z) (d : U) : option (list U) :=
    par_map ord threaded CHUNK (length vals) (tw_row vals times delta) d.
End TimeWindow.
