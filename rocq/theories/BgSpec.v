(** What BinCount, GroupFromBinCount and MakeiNext should return. *)
From Verif Require Import Base EaModel EaSpec.
Local Open Scope Z_scope.

(** The signed integers by their type numbers, with their bits. *)
Inductive signed_type : Z -> Z -> Prop :=
  | signed8 : signed_type 1 8
  | signed16 : signed_type 3 16
  | signed32 : signed_type 5 32
  | signed64 : signed_type 7 64
  | signed64' : signed_type 9 64.
(** [n] numbers of a signed type without gaps. *)
Definition keys_given (n : Z) (a : arg Z) : Prop := (exists bits, signed_type (a_dtype a) bits) /\ arg_ok n a /\ gapless a.
(** The type of counts and row numbers. *)
Definition wide_enough (n d : Z) : Prop := (n <= 2000000000 /\ d = 5) \/ (2000000000 < n /\ d = 7).
(** An array of its own that holds [l]. *)
Definition fresh (d : Z) (l : list Z) : arg Z := mkArg d l 0 1 (Z.of_nat (length l)).
(** An array of a new result. *)
Definition new_array (junk : nat -> list Z) : Prop := forall n, length (junk n) = n.
