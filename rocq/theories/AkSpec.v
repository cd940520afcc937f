(** What MultiKeyAlign32 and MultiKeyIsMember32 should return. *)
From Verif Require Import Base Mem Num AllModel EaModel EaSpec.
From Verif Require Import HashSpec.
From Verif Require Import MkModel MkSpec RkModel RkSpec AkModel.
Local Open Scope Z_scope.

(** Two tables with the same columns. *)
Definition tables_ok (n1 n2 : Z) (k1 k2 : roll_keys) : Prop :=
  keys_ok n1 k1 /\ keys_ok n2 k2 /\ map size_of (cols_of k1) = map size_of (cols_of k2).

(** The types of integer times: the type numbers, the number that stands for no time. *)
Inductive int_time : Z -> Z -> Prop :=
  | time_i32 : int_time 5 (-2147483648)
  | time_u32 : int_time 6 4294967295
  | time_i64 : int_time 7 (-9223372036854775808)
  | time_u64 : int_time 8 18446744073709551615
  | time_ll : int_time 9 (-9223372036854775808)
  | time_ull : int_time 10 18446744073709551615.
(** Two columns of times that go up, without gaps in memory. *)
Definition ints_ok (n : Z) (none : Z) (a : arg Z) : Prop :=
  arg_ok n a /\ gapless a /\ time_sorted Z.lt (fun x => x <> none) (arg_vals 0 a).
Definition floats_ok (n : Z) (a : arg fl) : Prop :=
  arg_ok n a /\ gapless a /\ time_sorted (fun x y => flt x y = true) (fun x => is_nan x = false) (arg_vals NaN a).
(** The type of the result and what stands for no row. *)
Inductive align_type (n1 n2 : Z) : Z -> Z -> Prop :=
  | align_32 : n1 <= 2000000000 -> n2 <= 2000000000 -> align_type n1 n2 5 (-2147483648)
  | align_64 : 2000000000 < n1 \/ 2000000000 < n2 -> align_type n1 n2 7 (-9223372036854775808).
Inductive found_type (n1 n2 : Z) : Z -> Z -> Prop :=
  | found_8 : n1 < 100 -> n2 < 100 -> found_type n1 n2 1 (-128)
  | found_16 : 100 <= Z.max n1 n2 < 30000 -> found_type n1 n2 3 (-32768)
  | found_32 : 30000 <= Z.max n1 n2 < 2000000000 -> found_type n1 n2 5 (-2147483648)
  | found_64 : 2000000000 <= Z.max n1 n2 -> found_type n1 n2 7 (-9223372036854775808).

(** Tables that are refused. *)
Definition keys_fit (k : roll_keys) : Prop := exists n, keys_ok n k.
Definition keys_bad (k : roll_keys) : Prop := columns_bad (cols_of k).
(** Times that are refused: no arrays, arrays of other types, of two types, or of another length than the table. *)
Definition dtype_of (v : time_array) : Z := match v with TInt _ a => a_dtype a | TFloat _ a => a_dtype a | TOther => 20 end.
Definition bytes_of (v : time_array) : Z := match v with TInt size _ | TFloat size _ => size | TOther => 0 end.
Definition length_of (v : time_array) : Z := match v with TInt _ a => a_len a | TFloat _ a => a_len a | TOther => 0 end.
Inductive times_bad (n1 n2 : Z) (v1 v2 : time_array) : Prop :=
  | no_array1 : v1 = TOther -> times_bad n1 n2 v1 v2
  | no_array2 : v2 = TOther -> times_bad n1 n2 v1 v2
  | no_times : ~ 5 <= dtype_of v1 <= 12 -> times_bad n1 n2 v1 v2
  | two_floats : 11 <= dtype_of v1 /\ dtype_of v1 <> dtype_of v2 -> times_bad n1 n2 v1 v2
  | two_sizes : dtype_of v1 <> dtype_of v2 /\ bytes_of v1 <> bytes_of v2 -> times_bad n1 n2 v1 v2
  | two_signs : 0 <= dtype_of v2 <= 20 /\ Z.odd (dtype_of v1) <> Z.odd (dtype_of v2) -> times_bad n1 n2 v1 v2
  | other_length1 : length_of v1 <> n1 -> times_bad n1 n2 v1 v2
  | other_length2 : length_of v2 <> n2 -> times_bad n1 n2 v1 v2.
