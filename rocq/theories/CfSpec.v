(** What CombineFilter, CombineAccum1Filter, CombineAccum2Filter, MakeiFirst and RemoveTrailingSpaces should do. *)
From Verif Require Import Base Mem AllModel EaModel EaSpec SrSpec.
From Verif Require CombSpec HashSpec.
Local Open Scope Z_scope.

(** int8, int16, int32 and the two 64-bit types; what an element of them can be. *)
Definition group_type (d : Z) : Prop := d = 1 \/ d = 3 \/ d = 5 \/ d = 7 \/ d = 9.
Definition highest (d : Z) : Z := if d =? 1 then 127 else if d =? 3 then 32767 else if d =? 5 then 2147483647 else 9223372036854775807.
(** The type of numbers below [n]. *)
Definition pair_type (n : Z) : Z := if n <? 120 then 1 else if n <? 32000 then 3 else if n <? 2000000000 then 5 else 7.
Definition of_its_type (d x : Z) : Prop := - highest d - 1 <= x <= highest d.
(** Group numbers: an array without gaps of one of these types. *)
Definition groups (a : arg Z) : Prop := group_type (a_dtype a) /\ whole_array a /\ Forall (of_its_type (a_dtype a)) (arg_vals 0 a).
(** None, or an array of [n] booleans without gaps; the rows that it keeps. *)
Definition filter_given (n : Z) (p : param Z) : Prop := match p with PNone => True | PArray f => a_dtype f = 0 /\ arg_ok n f /\ gapless f | POther => False end.
Definition keeps (p : param Z) (i : nat) : bool := match p with PArray f => negb (nth i (arg_vals 0 f) 0 =? 0) | _ => true end.
Definition filter_bad (n : Z) (p : param Z) : Prop := match p with PNone => False | PArray f => a_dtype f <> 0 \/ a_len f <> n | POther => True end.
(** The group number of each row; whether the row counts: it is kept and its number is one of 1 to [max1]. *)
Definition group_rows (a : arg Z) (max1 : Z) (p : param Z) : list (Z * bool) :=
  map (fun i => let x := nth i (arg_vals 0 a) 0 in (x, keeps p i && (1 <=? x) && (x <=? max1))) (seq 0 (Z.to_nat (a_len a))).
(** Item number [i] of [size] characters. *)
Definition item_at (size i : nat) (chars : list Z) : list Z := firstn size (skipn (i * size) chars).
Definition texts_of (size : nat) (a : arg (list Z)) : Prop :=
  (a_dtype a = 18 \/ a_dtype a = 19) /\ whole_array a /\ Forall (fun s => length s = size) (a_mem a).
