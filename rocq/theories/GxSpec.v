(** The indexes MBGet takes. *)
From Verif Require Import Base EaModel EaSpec.
Local Open Scope Z_scope.

(** The numbers of bits of the signed and of the unsigned integer types. *)
Definition signed_bits (d : Z) : list Z := match d with 1 => [8] | 3 => [16] | 5 => [32] | 7 | 9 => [64] | _ => [] end.
Definition unsigned_bits (d : Z) : list Z := match d with 2 => [8] | 4 => [16] | 6 => [32] | 8 | 10 => [64] | _ => [] end.
(** An index that lies within its memory, gaps are allowed: of a signed type; of an unsigned type with numbers of which the upper half is not used. *)
Definition is_index (a : arg Z) : Prop := 0 <= a_len a /\ arg_ok (a_len a) a /\
  ((exists w, In w (signed_bits (a_dtype a)) /\ forall x, In x (arg_vals 0 a) -> - 2 ^ (w - 1) <= x < 2 ^ (w - 1)) \/
   (exists w, In w (unsigned_bits (a_dtype a)) /\ forall x, In x (arg_vals 0 a) -> 0 <= x < 2 ^ (w - 1))).
(** The element an index names, counted from the end if it is negative; the default if there is none. *)
Definition element {X} (l : list X) (default : X) (i : Z) (x : X) : Prop :=
  (0 <= i < Z.of_nat (length l) /\ nth_error l (Z.to_nat i) = Some x) \/
  (- Z.of_nat (length l) <= i < 0 /\ nth_error l (Z.to_nat (i + Z.of_nat (length l))) = Some x) \/
  (~ - Z.of_nat (length l) <= i < Z.of_nat (length l) /\ x = default).
