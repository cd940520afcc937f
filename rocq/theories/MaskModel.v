(** src/Convert.cpp: assignment under a boolean mask. No proofs in this file. *)
From Verif Require Import Base Mem Par.
Local Open Scope Z_scope.

(** ** SumBooleanMask: a mask is a list of bytes *)

(* the bytes in groups of 32, as far as there are full groups *)
Fixpoint vectors (n : nat) (l : list Z) : list (list Z) :=
  match n with O => [] | S n' => firstn 32 l :: vectors n' (skipn 32 l) end.
(* _mm256_add_epi<w> *)
Definition vadd (w : Z) (a b : list Z) : list Z := map (fun p : Z * Z => (fst p + snd p) mod 2 ^ w) (combine a b).
(* _mm256_unpacklo_epi*(v, 0), _mm256_unpackhi_epi*(v, 0): [k] elements of each 128-bit half, widened *)
Definition unpacklo (k : nat) (v : list Z) : list Z := firstn k v ++ firstn k (skipn (2 * k) v).
Definition unpackhi (k : nat) (v : list Z) : list Z := firstn k (skipn k v) ++ firstn k (skipn (3 * k) v).
(* Convert.cpp:3382-3396: up to 255 vectors, one counter of a byte for each place *)
Definition byte_popcounts (vs : list (list Z)) : list Z :=
  fold_left (fun acc v => vadd 8 acc (map (Z.min 1) v)) vs (repeat 0 32%nat).
(* Convert.cpp:3398-3421 *)
Definition sum_lanes (v : list Z) : Z :=
  let v16 := vadd 16 (unpacklo 8 v) (unpackhi 8 v) in
  let v32 := vadd 32 (unpacklo 4 v16) (unpackhi 4 v16) in
  let v64 := vadd 64 (unpacklo 2 v32) (unpackhi 2 v32) in
  zsum v64.
(* Convert.cpp:3372-3430: [vs] in blocks of at most 255 *)
Fixpoint sum_blocks (fuel : nat) (vs : list (list Z)) (result : Z) : option Z :=
  match vs with
  | [] => Some result
  | _ => match fuel with
         | O => None
         | S f => let n := Nat.min 255 (length vs) in
                  sum_blocks f (skipn n vs) (result + sum_lanes (byte_popcounts (firstn n vs)))
         end
  end.
(* Convert.cpp:3327-3443 *)
Definition SumBooleanMask (bytes : list Z) : option Z :=
  let n := (length bytes / 32)%nat in
  match sum_blocks n (vectors n bytes) 0 with
  | None => None
  | Some r => Some (fold_left (fun acc b => if b =? 0 then acc else acc + 1) (skipn (n * 32) bytes) r)
  end.

(** ** SetItem *)

Section SetItem.
  Context {A : Type}.

  (* Convert.cpp:3448-3523 CopyItemBooleanMask, all item sizes: the writes from row [row] on *)
  Fixpoint CopyItemBooleanMask (vals : list A) (mask : list Z) (row : Z) : option (list (Z * A)) :=
    match mask with
    | [] => Some []
    | b :: mask' =>
        if b =? 0 then CopyItemBooleanMask vals mask' (row + 1)
        else match vals with
             | [] => None
             | x :: vals' => option_map (cons (row, x)) (CopyItemBooleanMask vals' mask' (row + 1))
             end
    end.
  (* Convert.cpp:3528-3602 CopyItemBooleanMaskScalar *)
  Fixpoint CopyItemBooleanMaskScalar (x : A) (mask : list Z) (row : Z) : list (Z * A) :=
    match mask with
    | [] => []
    | b :: mask' => (if b =? 0 then [] else [(row, x)]) ++ CopyItemBooleanMaskScalar x mask' (row + 1)
    end.

  (* Convert.cpp:3633 *)
  Definition SETITEM_PARTITION_SIZE : Z := 16384.
  (* Convert.cpp:3678-3684, 3713-3719, 3744-3750 *)
  Definition last_count (maskLength sections t : Z) : Z :=
    if t =? sections - 1 then
      let c := Z.land maskLength (SETITEM_PARTITION_SIZE - 1) in if c =? 0 then SETITEM_PARTITION_SIZE else c
    else SETITEM_PARTITION_SIZE.
  Definition sub_mask (mask : list Z) (from len : Z) : list Z := firstn (Z.to_nat len) (skipn (Z.to_nat from) mask).
  (* the result of SetItem: True and the array, or False (left to numpy) *)
  Definition answer : Type := option (list A).

  (* Convert.cpp:3607-3626 *)
  Definition SetItemBooleanMask (arr : list A) (mask : list Z) (vals : list A) : option answer :=
    match SumBooleanMask mask with
    | None => None
    | Some bsum =>
        if (0 <? bsum) && (bsum =? Z.of_nat (length vals)) then
          match CopyItemBooleanMask vals mask 0 with
          | None => None
          | Some ws => option_map Some (writes ws arr)
          end
        else Some None
    end.
  (* Convert.cpp:3637-3770; each of the two passes is shared by threads *)
  Definition SetItemBooleanMaskLarge (ord : sched) (arr : list A) (mask : list Z) (vals : list A) : option answer :=
    let maskLength := Z.of_nat (length mask) in
    let sections := (maskLength + (SETITEM_PARTITION_SIZE - 1)) / SETITEM_PARTITION_SIZE in
    let idx := map Z.of_nat (seq 0 (Z.to_nat sections)) in
    let part t := sub_mask mask (SETITEM_PARTITION_SIZE * t) (last_count maskLength sections t) in
    match all_some (map (fun t => option_map (fun c => (t, c)) (SumBooleanMask (part t))) idx) with
    | None => None
    | Some cws =>
        match writes (ord _ cws) (repeat 0 (Z.to_nat sections)) with
        | None => None
        | Some counts =>
            let bsum := zsum counts in
            let offs := excl 0 counts in
            if (0 <? bsum) && (bsum =? Z.of_nat (length vals)) then
              match all_some (map (fun t => match zrd offs t with
                                            | None => None
                                            | Some o => CopyItemBooleanMask (skipn (Z.to_nat o) vals) (part t) (SETITEM_PARTITION_SIZE * t)
                                            end) idx) with
              | None => None
              | Some wss => option_map Some (writes (ord _ (concat wss)) arr)
              end
            else if (0 <? bsum) && (Z.of_nat (length vals) =? 1) then
              match vals with
              | [] => None
              | x :: _ => option_map Some (writes (ord _ (concat (map (fun t => CopyItemBooleanMaskScalar x (part t) (SETITEM_PARTITION_SIZE * t)) idx))) arr)
              end
            else Some None
        end
    end.
  (* Convert.cpp:3782-3866, for arrays of one dimension and the same type *)
  Definition SetItem (ord : sched) (arr : list A) (mask : list Z) (vals : list A) : option answer :=
    if (length arr =? length mask)%nat then
      if Z.of_nat (length arr) <=? SETITEM_PARTITION_SIZE then SetItemBooleanMask arr mask vals
      else SetItemBooleanMaskLarge ord arr mask vals
    else Some None.
End SetItem.

(** A one-dimensional view of a buffer: the items [start], [start + stride], ... The code takes PyArray_BYTES as a contiguous array
    (Convert.cpp:3611, 3617-3618, 3650-3651, 3668). *)
Record view {A} := { buf : list A; start : nat; stride : nat; len : nat }.
Arguments view : clear implicits.
Definition read_contiguous {A} (v : view A) : list A := firstn (len v) (skipn (start v) (buf v)).
