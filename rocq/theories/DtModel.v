(** Model of TimeStringToNanos, DateStringToNanos, DateTimeStringToNanos and StrptimeToNanos of /repo/src/DateTime.cpp from their arguments to their
    results.  The parsers are those of DateModel and StrpModel, the arrays those of EaModel; an item is the list of its bytes.
    Simplified: arrays have one dimension; strides are multiples of the item size; memory can always be had; char is signed; a warning is a part of the
    result (Python may be told to turn it into an exception, which these functions do not look for).  No proofs in this file. *)
From Verif Require Import Base Mem AllModel EaModel.
From Verif Require DateModel StrpModel SortModel.
Local Open Scope Z_scope.

Inductive parser := Times | Dates | DateTimes.
(* DateTime.cpp:480-535, 543-598, 606-661 *)
Definition parse_of (p : parser) : list Z -> option Z -> option (Z * option Z) :=
  match p with Times => DateModel.ParseTime | Dates => DateModel.ParseDate | DateTimes => DateModel.ParseDateTime end.
(* DateTime.cpp:511-529: byte strings are read as char, unicode strings as uint32 *)
Definition as_char (b : Z) : Z := if b <? 128 then b else b - 256.
Fixpoint as_words (s : list Z) : list Z :=
  match s with b0 :: b1 :: b2 :: b3 :: r => SortModel.le_word [b0; b1; b2; b3] :: as_words r | _ => [] end.
Definition chars_of (d : Z) (item : list Z) : list Z := if d =? 18 then map as_char item else as_words item.
(* DateTime.cpp:494-500 *)
Definition is_text (d : Z) : bool := (d =? 18) || (d =? 19).
(* DateTime.cpp:480-661: the numbers, and the row and the position of the warning *)
Definition StringToNanosCall (p : parser) (a : arg (list Z)) : outcome (list Z * option (nat * Z)) :=
  if is_text (a_dtype a)
  then obind (undef (read_arg a)) (fun items => undef (DateModel.parse_rows (parse_of p) (map (chars_of (a_dtype a)) items) 0 None))
  else Error.
(* DateTime.cpp:742-790; [format]: the bytes of the second argument *)
Definition StrptimeCall (a : arg (list Z)) (format : list Z) : outcome (list Z) :=
  if is_text (a_dtype a)
  then obind (undef (read_arg a)) (fun items => each (fun item => undef (StrpModel.StrptimeToNanos format (chars_of (a_dtype a) item))) items)
  else Error.
