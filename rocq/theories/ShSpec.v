(** What ShiftArrays should do. *)
From Verif Require Import Base EaModel EaSpec MkModel.
From Verif Require CombSpec.
Local Open Scope Z_scope.

(** None, or an array of a known type without gaps. *)
Definition may_shift (c : key_column) : Prop :=
  match c with KNone => True | KArray _ a => 0 <= a_dtype a <= 20 /\ 0 <= a_len a /\ arg_ok (a_len a) a /\ (a_step a = 1 \/ a_len a = 0) | KOther => False end.
(** [m] is the memory of the array with its elements shifted by [k]; what lies before and after them is unchanged. *)
Definition shifted_memory (k : Z) (c : key_column) (m : list (list Z)) : Prop :=
  match c with
  | KArray _ a => length m = length (a_mem a) /\ CombSpec.shifted k (arg_vals [] a) (arg_vals [] (mkArg (a_dtype a) m (a_start a) (a_step a) (a_len a))) /\
      forall i, Z.of_nat i < a_start a \/ a_start a + a_len a <= Z.of_nat i -> nth_error m i = nth_error (a_mem a) i
  | _ => m = []
  end.
(** The number of elements less the amount is a number of 64 bits. *)
Definition fits (k : Z) (c : key_column) : Prop := match c with KArray _ a => a_len a - k < 2 ^ 63 | _ => True end.
(** Refused: no array, or of an unknown type, or a single element whose stride is not its size. *)
Definition no_shift (c : key_column) : Prop :=
  c = KOther \/ exists size a, c = KArray size a /\ (~ 0 <= a_dtype a <= 20 \/ (a_len a = 1 /\ a_step a <> 1)).
