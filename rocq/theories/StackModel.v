(** src/SDSFile.cpp: several SDS files read and stacked into one set of columns.
    Left out: sections of a file (ScanForSections), the include, exclude and folder lists (every column is read), filters, shared memory, MATLAB_MODE.
    The bytes of an array after reading and decompressing are a field of the column: SdsModel.v has the file itself.
    64-bit sums do not overflow in the model. No proofs in this file. *)
From Coq Require Import SpecFloat.
From Verif Require Import Base ConvModel.
From Verif Require SdsModel.
Local Open Scope Z_scope.

Notation le := SdsModel.le.
Notation unle := SdsModel.unle.
Definition len (bs : list Z) : Z := Z.of_nat (length bs).
Definition product (l : list Z) : Z := fold_right Z.mul 1 l.

(** ** Items in memory: little endian, two's complement, IEEE 754 and the x87 format (six bytes of padding, taken as 0) *)

Definition size (t : dtype) : Z := bits t / 8.
Definition frac_bits (t : dtype) : Z := match t with F80 => 64 | _ => prec t - 1 end.
Definition exp_bits (t : dtype) : Z := match t with F32 => 8 | F64 => 11 | _ => 15 end.
Definition hidden (t : dtype) : Z := match t with F80 => 0 | _ => 2 ^ frac_bits t end.
Definition least (t : dtype) : Z := 3 - emax t - prec t.
Definition of_float (t : dtype) (f : spec_float) : Z :=
  let sg (s : bool) := if s then 2 ^ (frac_bits t + exp_bits t) else 0 in
  let top := (2 ^ exp_bits t - 1) * 2 ^ frac_bits t + (match t with F80 => 2 ^ 63 | _ => 0 end) in
  match f with
  | S754_zero s => sg s
  | S754_infinity s => sg s + top
  | S754_nan => top + 2 ^ (prec t - 2)
  | S754_finite s m e =>
      sg s + (if Zpos m <? 2 ^ (prec t - 1) then Zpos m else (e - least t + 1) * 2 ^ frac_bits t + (Zpos m - hidden t))
  end.
Definition to_float (t : dtype) (z : Z) : spec_float :=
  let f := z mod 2 ^ frac_bits t in
  let x := (z / 2 ^ frac_bits t) mod 2 ^ exp_bits t in
  let s := Z.odd (z / 2 ^ (frac_bits t + exp_bits t)) in
  if x =? 2 ^ exp_bits t - 1 then (if f mod 2 ^ (prec t - 1) =? 0 then S754_infinity s else S754_nan)
  else if x =? 0 then (match f with Zpos m => S754_finite s m (least t) | _ => S754_zero s end)
  else match f + hidden t with Zpos m => S754_finite s m (x - 1 + least t) | _ => S754_zero s end.
Definition enc (t : dtype) (v : val) : list Z :=
  le (Z.to_nat (size t)) (match v with VI z => z | VF f => of_float t f end).
Definition dec (t : dtype) (bs : list Z) : val :=
  if is_float t then VF (to_float t (unle bs)) else VI (if is_signed t then Mem.wrap (bits t) (unle bs) else unle bs).

(** ** Types *)

(* SDSFile.h:117-141 *)
Definition SDS_INT : Z := 5. Definition SDS_UINT : Z := 6. Definition SDS_LONG : Z := 7. Definition SDS_ULONG : Z := 8. Definition SDS_LONGLONG : Z := 9.
Definition SDS_ULONGLONG : Z := 10. Definition SDS_FLOAT : Z := 11. Definition SDS_DOUBLE : Z := 12. Definition SDS_LONGDOUBLE : Z := 13.
Definition SDS_STRING : Z := 18. Definition SDS_UNICODE : Z := 19.
(* SDSFile.cpp:4478-4490 *)
Definition SDS_ITEMSIZE_TABLE : list Z := [1; 1; 1; 2; 2; 4; 4; 4; 4; 8; 8; 4; 8; 16; 8; 16; 32; 0; 0; 0; 0; 0].
(* SDSFile.cpp:3126-3154 *)
Definition FixupDType (d item : Z) : Z :=
  if d =? SDS_LONG then (if item =? 4 then SDS_INT else SDS_LONGLONG)
  else if d =? SDS_ULONG then (if item =? 4 then SDS_UINT else SDS_ULONGLONG)
  else d.
(* SDSFile.cpp:4863-4899 WhichDType: the one flag that is set *)
Inductive class := IsFloat | IsInt | IsUInt | IsString | IsUnknown.
Definition WhichDType (d : Z) : class :=
  if d <=? SDS_LONGDOUBLE then
    if SDS_FLOAT <=? d then IsFloat else if Z.odd d || (d =? 0) then IsInt else IsUInt
  else if (d =? SDS_STRING) || (d =? SDS_UNICODE) then IsString else IsUnknown.
Definition class_eqb (a b : class) : bool :=
  match a, b with IsFloat, IsFloat | IsInt, IsInt | IsUInt, IsUInt | IsString, IsString | IsUnknown, IsUnknown => true | _, _ => false end.
(* one of the two classes is p *)
Definition either (p : class) (a b : class) : bool := class_eqb p a || class_eqb p b.

(* SDSFile.h:270-301 SDS_ARRAY_BLOCK: what stacking looks at; [b_c], [b_f]: the flags C_CONTIGUOUS and F_CONTIGUOUS *)
Record block := B { b_dtype : Z; b_item : Z; b_dims : list Z; b_c : bool; b_f : bool }.
Definition fixed (b : block) : Z := FixupDType (b_dtype b) (b_item b).
Definition ndim (b : block) : Z := Z.of_nat (length (b_dims b)).
Definition dim0 (b : block) : Z := hd 0 (b_dims b).
(* the bytes of one row: SDSFile.cpp:4774-4779, 5425-5429, 7547-7551 *)
Definition row_size (b : block) : Z := b_item b * product (tl (b_dims b)).
(* SDSFile.cpp:1252-1272 *)
Definition GetBytesPerRow (b : block) : Z :=
  if 0 <? dim0 b then (dim0 b * product (tl (b_dims b))) / dim0 b * b_item b else 0.
(* SDSFile.cpp:4493-4526; the strides are computed anew before the array is made *)
Definition UpgradeType (m : block) (d item : Z) : block :=
  let s := if (0 <=? d) && (d <? 22) then (let s := nth (Z.to_nat d) SDS_ITEMSIZE_TABLE 0 in if s =? 0 then item else s) else 4 in
  B d s (b_dims m) (b_c m) (b_f m).

(* SDSFile.cpp:3192-3198 SDS_COMPATIBLE *)
Record compat := Cm { c_ok : bool; c_string : bool; c_conv : bool; c_rot : bool }.

(* SDSFile.cpp:5523-5550: the same class *)
Definition same_class (m o : block) (md od : Z) (fix_ : bool) : block :=
  if md <? od then (if fix_ then UpgradeType m od (b_item o) else m)
  else if (md =? SDS_UNICODE) && (od =? SDS_STRING) && (b_item m <? b_item o * 4) then UpgradeType m md (b_item o * 4)
  else m.
(* SDSFile.cpp:5561-5603: a floating point type and an integer type *)
Definition with_float (m o : block) (md od : Z) : block :=
  if od <? md then (if (SDS_INT <=? od) && (md <? SDS_DOUBLE) then UpgradeType m SDS_DOUBLE 0 else m)
  else if (SDS_INT <=? md) && (od <? SDS_DOUBLE) then UpgradeType m SDS_DOUBLE 0
  else UpgradeType m od (b_item o).
(* SDSFile.cpp:5610-5662: signed and unsigned; the flag: a conversion is needed *)
Definition with_sign (m : block) (md od : Z) : block * bool :=
  let hi := Z.max md od in let lo := Z.min md od in
  if (hi =? SDS_ULONGLONG) && (lo =? SDS_LONGLONG) then (m, false)
  else
    let n := Z.lor hi 1 in
    let n := if n =? SDS_LONG then SDS_LONGLONG else n in
    let n := if SDS_LONGLONG <? n then SDS_LONGLONG else n in
    (if md =? n then m else UpgradeType m n 0, true).
(* SDSFile.cpp:5506-5686: the types; the master block afterwards, IsCompatible, NeedsStringFixup, NeedsConversion *)
Definition compare_types (m o : block) (fix_ : bool) : block * bool * bool * bool :=
  let md := fixed m in let od := fixed o in
  if md =? od then
    if (b_dtype m =? SDS_STRING) || (b_dtype m =? SDS_UNICODE) then
      if b_item m =? b_item o then (m, true, false, false)
      else (if fix_ && (b_item m <? b_item o) then UpgradeType m (b_dtype m) (b_item o) else m, true, true, false)
    else (m, b_item m =? b_item o, false, false)
  else
    let wm := WhichDType md in let wo := WhichDType od in
    if class_eqb wm wo then (same_class m o md od fix_, true, false, true)
    else if either IsFloat wm wo && (either IsInt wm wo || either IsUInt wm wo) then
      (if fix_ then with_float m o md od else m, true, false, true)
    else if either IsUInt wm wo && either IsInt wm wo then
      (if fix_ then let '(m', c) := with_sign m md od in (m', true, false, c) else (m, true, false, true))
    else (m, false, false, false).
(* SDSFile.cpp:5503-5756 IsArrayCompatible: the master block afterwards, and the answer *)
Definition IsArrayCompatible (m o : block) (fix_ : bool) : block * compat :=
  let '(m1, ok1, str, conv) := compare_types m o fix_ in
  if negb (ndim m1 =? ndim o) then (m1, Cm false str conv false)
  else if 1 <? ndim m1 then
    let ok2 := forallb (fun p : Z * Z => fst p =? snd p) (combine (tl (b_dims m1)) (tl (b_dims o))) in
    if negb (b_c o && b_f o) && negb (Bool.eqb (b_f m1) (b_f o)) then
      if fix_ && (b_c m1 && b_f m1) then (B (b_dtype m1) (b_item m1) (b_dims m1) (b_c o) (b_f o), Cm (ok1 && ok2) str conv false)
      else (m1, Cm (ok1 && ok2) str conv true)
    else (m1, Cm (ok1 && ok2) str conv false)
  else (m1, Cm ok1 str conv false).

(** ** The columns of all files *)

Definition name : Type := list Z.
Definition name_eqb (a b : name) : bool := if list_eq_dec Z.eq_dec a b then true else false.
(* an array of a file: its block and its bytes *)
Definition part : Type := block * list Z.
Record column := Col { co_name : name; co_enum : Z; co_part : part }.
(* a file that could be opened; [s_dataset]: its type is TABLE or DATASET *)
Record sfile := F { s_dataset : bool; s_cols : list column }.
(* SDSFile.cpp:6095-6113 SDS_COLUMN_KING; the parts of the valid files *)
Record king := King { k_name : name; k_enum : Z; k_block : block; k_parts : list (option part) }.
Record table := Tb { t_kings : list king; t_problems : Z }.

(* SDSFile.cpp:6215-6219, 6260-6276: how many problems one array adds *)
Definition problems (o : block) (c : compat) : Z :=
  (if b_c o || b_f o then 0 else 1) + (if c_rot c then 1 else 0) + (if c_ok c then 0 else 1).
(* SDSFile.cpp:6203-6308 AddColumnList: the column is there *)
Fixpoint add_to (ks : list king) (pos : nat) (c : column) : option (list king * Z) :=
  match ks with
  | [] => None
  | k :: ks' =>
      if name_eqb (k_name k) (co_name c) then
        let '(m, a) := IsArrayCompatible (k_block k) (fst (co_part c)) true in
        Some (King (k_name k) (k_enum k) m (upd (k_parts k) pos (Some (co_part c))) :: ks', problems (fst (co_part c)) a)
      else match add_to ks' pos c with Some (ks'', p) => Some (k :: ks'', p) | None => None end
  end.
Definition AddColumnList (valid pos : nat) (t : table) (c : column) : table :=
  match add_to (t_kings t) pos c with
  | Some (ks, p) => Tb ks (t_problems t + p)
  | None =>
      Tb (t_kings t ++ [King (co_name c) (co_enum c) (fst (co_part c)) (upd (repeat None valid) pos (Some (co_part c)))])
         (t_problems t + problems (fst (co_part c)) (Cm true false false false))
  end.
(* SDSFile.cpp:7115-7207: the files in order *)
Fixpoint scan (valid pos : nat) (fs : list sfile) (t : table) : table :=
  match fs with [] => t | f :: fs' => scan valid (S pos) fs' (fold_left (AddColumnList valid pos) (s_cols f) t) end.
(* SDSFile.cpp:7157-7188: the length of the dataset, the last column decides *)
Definition dataset_length (f : sfile) : Z :=
  fold_left (fun l c => let b := fst (co_part c) in
    if s_dataset f && Z.odd (co_enum c) && (0 <? ndim b) then dim0 b else l) (s_cols f) 0.

(** ** Filling the arrays *)

(* one access of a thread to the array of the column *)
Inductive step :=
  | Store (off : Z) (bs : list Z)
  | Move (src : Z) (n : Z) (dst : Z) (f : list Z -> option (list Z)).
Definition store (off : Z) (bs mem : list Z) : option (list Z) :=
  if (0 <=? off) && (off + len bs <=? len mem) then
    Some (firstn (Z.to_nat off) mem ++ bs ++ skipn (Z.to_nat (off + len bs)) mem)
  else None.
Definition load (off n : Z) (mem : list Z) : option (list Z) :=
  if (0 <=? off) && (0 <=? n) && (off + n <=? len mem) then Some (firstn (Z.to_nat n) (skipn (Z.to_nat off) mem)) else None.
Definition run_step (s : step) (mem : list Z) : option (list Z) :=
  match s with
  | Store off bs => store off bs mem
  | Move src n dst f => match load src n mem with Some x => match f x with Some y => store dst y mem | None => None end | None => None end
  end.
Fixpoint run (l : list step) (mem : list Z) : option (list Z) :=
  match l with [] => Some mem | s :: l' => match run_step s mem with Some mem' => run l' mem' | None => None end end.

Definition INT_MAX : Z := 2 ^ 31 - 1.
Definition upto (n : Z) : list Z := map Z.of_nat (seq 0 (Z.to_nat n)).
(* n - 1, ..., 0 *)
Definition downfrom (n : Z) : list Z := rev (upto n).

(* SDSFile.cpp:119-179 SDSGetDefaultType: the bytes that are read there as an integer of [item] bytes *)
Definition default_bytes (d item : Z) : list Z :=
  if (d =? SDS_STRING) || (d =? SDS_UNICODE) then repeat 0 (Z.to_nat item)
  else match of_num d with Some t => enc t (GetDefaultForType t) | None => enc I64 (GetDefaultForType I64) end.
(* SDSFile.cpp:4766-4836 GapFill of [rows] rows; None: the int counter overflows *)
Definition GapFill (k : block) (base rows : Z) : option (list step) :=
  let bytes := row_size k * rows in
  let item := b_item k in
  if existsb (Z.eqb item) [1; 2; 4; 8] then
    if bytes / item <=? INT_MAX then Some (map (fun j => Store (base + j * item) (default_bytes (fixed k) item)) (upto (bytes / item))) else None
  else Some [Store base (repeat 0 (Z.to_nat bytes))].
(* SDSFile.cpp:5188-5219 GetGapFillSpecial; the types 7 and 8 have no function *)
Definition gap_type (d : Z) : option dtype := if (d =? SDS_LONG) || (d =? SDS_ULONG) then None else of_num d.
(* SDSFile.cpp:5027-5057 GapFillSpecial: Fortran order; None: no function for the type *)
Definition GapFillSpecial (k : block) (total off rows : Z) : option (list step) :=
  match gap_type (b_dtype k) with
  | None => None
  | Some t => Some (concat (map (fun i => map (fun c => Store ((off + i + c * total) * size t) (enc t (GetDefaultForType t))) (upto (product (tl (b_dims k))))) (upto rows)))
  end.
Definition rotated (k : block) : bool := (2 <=? ndim k) && b_f k.
(* SDSFile.cpp:5223-5290 GapFillAny *)
Definition GapFillAny (k : block) (total off base rows : Z) : option (list step) :=
  if rotated k then GapFillSpecial k total off rows else GapFill k base rows.

(* SDSFile.cpp:4534-4577 ConvertInplace, 4581-4625 ConvertInplaceFloat: one item *)
Definition ConvertItem (t u : dtype) (x : val) : option val :=
  if is_float t then (if negb (vneq x x) then cast u x else Some (GetDefaultForType u))
  else if vneq x (GetDefaultForType t) then cast u x else Some (GetDefaultForType u).
(* SDSFile.cpp:4548-4576: from the last item to the first, of [a] bytes to [b] bytes *)
Definition ConvertInplace (base bytes a b : Z) (f : list Z -> option (list Z)) : list step :=
  let n := bytes / a in
  if n * b <? bytes then []
  else map (fun i => Move (base + i * a) a (base + i * b) f) (downfrom n).
(* SDSFile.cpp:4663-4762 GetInplaceConversionFunction, 4907-4939 ConvertDType; bool is no output type *)
Definition ConvertDType (k o : block) (base bytes : Z) : list step :=
  let sd := fixed o in let md := fixed k in
  if (sd =? SDS_STRING) && (md =? SDS_UNICODE) then ConvertInplace base bytes 1 4 (fun bs => Some (le 4 (unle bs)))
  else match of_num sd, of_num md with
       | Some t, Some u =>
           match u with
           | Bool => []
           | _ => ConvertInplace base bytes (size t) (size u) (fun bs => option_map (enc u) (ConvertItem t u (dec t bs)))
           end
       | _, _ => []
       end.
(* SDSFile.cpp:5420-5498 StringFixup: [unit] bytes at a time, rows of [slave] units become rows of [wide] units, from the end; None: the int counter overflows *)
Definition widen (base unit slave wide rows : Z) : list step :=
  concat (map (fun r =>
    map (fun j => Store (base + (r * wide + j) * unit) (repeat 0 (Z.to_nat unit))) (map (fun j => slave + j) (downfrom (wide - slave))) ++
    map (fun j => Move (base + (r * slave + j) * unit) unit (base + (r * wide + j) * unit) Some) (downfrom slave))
    (downfrom rows)).
Definition StringFixup (k o : block) (base rows slave : Z) : option (list step) :=
  let wide := b_item k * product (tl (b_dims o)) in
  if (0 <? wide - slave) && (0 <? rows) then
    if rows <=? INT_MAX then
      Some (if b_dtype k =? SDS_STRING then widen base 1 slave wide rows else widen base 4 (slave / 4) (wide / 4) rows)
    else None
  else Some [].
(* SDSFile.cpp:5317-5340 RotationalFixup from the bytes read; None: a read behind the buffer, SDSFile.cpp:5764-5802 *)
Fixpoint all_parts (l : list (option step)) : option (list step) :=
  match l with
  | [] => Some []
  | Some x :: l' => match all_parts l' with Some y => Some (x :: y) | None => None end
  | None :: _ => None
  end.
Definition RotationalFixup (k o : block) (data : list Z) (total off : Z) : option (list step) :=
  let chunk := dim0 o * b_item k in
  all_parts (map (fun i => match load (i * chunk) chunk data with
                           | Some x => Some (Store (off * b_item k + i * (total * b_item k)) x)
                           | None => None
                           end) (upto (nth 1 (b_dims k) 0))).

(* SDSFile.cpp:5872-6060 DecompressMultiArray: the accesses of one task. [total]: the rows of the whole column, [off]: the first row of the file, [rows]: up to the next file *)
Definition DecompressMultiArray (k : block) (total off rows : Z) (p : option part) (c : compat) : option (list step) :=
  let base := if rotated k then 0 else row_size k * off in
  match p with
  | None => GapFillAny k total off base rows
  | Some (o, data) =>
      if negb (c_ok c) then GapFillAny k total off base rows
      else if dim0 o =? 0 then Some []                    (* StackPosition is -1 *)
      else
        let slave := GetBytesPerRow o in
        if slave =? 0 then Some []
        else if rotated k then RotationalFixup k o data total off
        else
          let n := len data / slave in
          match (if c_string c then StringFixup k o base n slave else Some []) with
          | None => None
          | Some s => Some (Store base data :: s ++ (if c_conv c then ConvertDType k o base (n * slave) else []))
          end
  end.

(** ** ReadAndStackFiles *)

(* SDSFile.cpp:7335-7360: the rows of one file *)
Definition calc_length (p : option part) (ds : Z) : Z :=
  match p with None => ds | Some (o, _) => if dim0 o =? 0 then ds else dim0 o end.
(* running sums *)
Fixpoint starts (off : Z) (ls : list Z) : list Z := match ls with [] => [] | l :: r => off :: starts (off + l) r end.
(* SDSFile.cpp:7341 and 7633: the block of the column compared again with every part, without fixing it up *)
Fixpoint recheck (m : block) (ps : list (option part)) : block * list compat :=
  match ps with
  | [] => (m, [])
  | None :: r => let '(m', cs) := recheck m r in (m', Cm true false false false :: cs)
  | Some (o, _) :: r => let '(m1, c) := IsArrayCompatible m o false in let '(m', cs) := recheck m1 r in (m', c :: cs)
  end.
(* the result for one column: its type and shape, the offsets of the files, the size of the array, and the accesses of the tasks *)
Record plan := Plan { p_name : name; p_enum : Z; p_block : block; p_offsets : list Z; p_rows : Z; p_tasks : list (option (list step)) }.
Definition p_bytes (p : plan) : Z := p_rows p * row_size (p_block p).
Fixpoint tasks (k : block) (total : Z) (offs : list Z) (ps : list (option part)) (cs : list compat) : list (option (list step)) :=
  match offs, ps, cs with
  | off :: offs', p :: ps', c :: cs' => DecompressMultiArray k total off (hd total offs' - off) p c :: tasks k total offs' ps' cs'
  | _, _, _ => []
  end.
(* SDSFile.cpp:7283-7690, one column; [reserve n]: the further rows that are reserved *)
Definition stack_column (reserve : Z -> Z) (ds : list Z) (kg : king) : plan :=
  let ls := map (fun x => calc_length (fst x) (snd x)) (combine (k_parts kg) ds) in
  let sum := fold_right Z.add 0 ls in
  let total := sum + reserve sum in
  let m1 := fst (recheck (k_block kg) (k_parts kg)) in
  let '(m2, cs) := recheck m1 (k_parts kg) in
  let k := B (b_dtype m2) (b_item m2) (match b_dims m2 with [] => [] | _ :: r => total :: r end) (b_c m2) (b_f m2) in
  Plan (k_name kg) (k_enum kg) k (starts 0 ls ++ [total]) total (tasks k total (starts 0 ls) (k_parts kg) cs).
(* SDSFile.cpp:7054-7756 ReadAndStackFiles; [None] among the files: it could not be opened; [must]: MustExist; None: an error *)
Definition valid_files (fs : list (option sfile)) : list sfile := concat (map (fun f => match f with Some g => [g] | None => [] end) fs).
Definition ReadAndStackFiles (must : bool) (reserve : Z -> Z) (fs : list (option sfile)) : option (list plan) :=
  let vs := valid_files fs in
  if must && (length vs <? length fs)%nat then None
  else
    let t := scan (length vs) 0 vs (Tb [] 0) in
    if (length vs =? 0)%nat then None
    else if negb (t_problems t =? 0) then None
    else Some (map (stack_column reserve (map dataset_length vs)) (t_kings t)).
