(** What the functions that read times from texts should return. *)
From Verif Require Import Base Mem AllModel EaModel EaSpec DateSpec DtModel.
From Verif Require SrSpec StrpModel StrpSpec.
Local Open Scope Z_scope.

(** The bytes of a text: byte strings have one byte for each character, unicode strings four, the lowest first. *)
Definition four (c : Z) : list Z := [c mod 256; c / 256 mod 256; c / 65536 mod 256; c / 16777216].
Definition holds (d : Z) (s item : list Z) : Prop :=
  if d =? 18 then item = s /\ Forall (fun c => 0 <= c < 128) s else item = flat_map four s /\ Forall (fun c => 0 <= c < 2 ^ 32) s.
(** An array of texts without gaps. *)
Definition text_array (a : arg (list Z)) : Prop := (a_dtype a = 18 \/ a_dtype a = 19) /\ SrSpec.whole_array a.

(** The text [s] says [t]; [whole]: with seconds, or up to its last character. *)
Definition says (p : parser) (whole : bool) (s : list Z) (t : Z) : Prop :=
  match p with
  | Times => exists sp c pad, s = sp ++ clock_text c ++ pad /\ blank sp /\ padding pad /\ clock_shape c /\ clock_ok c /\
      (whole = true -> has_seconds c \/ pad = []) /\ t = clock_nanos c
  | Dates => exists sp b y m d pad, s = sp ++ date_text b y m d ++ pad /\ blank sp /\ padding pad /\ valid_date y m d /\ t = nanos y m d
  | DateTimes =>
      (exists sp b y m d u c pad, s = sp ++ date_text b y m d ++ delim u :: clock_text c ++ pad /\ blank sp /\ padding pad /\ valid_date y m d /\
         clock_shape c /\ clock_ok c /\ (whole = true -> has_seconds c \/ pad = []) /\ t = nanos y m d + clock_nanos c) \/
      (exists sp b y m d pad, s = sp ++ date_text b y m d ++ pad /\ blank sp /\ padding pad /\ valid_date y m d /\ (whole = true -> pad = []) /\ t = nanos y m d)
  end.
(** Text of characters below 128 (byte strings) or 256 (unicode strings). *)
Definition simple_item (d : Z) (item : list Z) : Prop := exists s, holds d s item /\ Forall (fun c => c < 256) s.
(** The text [s] says [t] in the format with the parts [toks]; other characters may follow. *)
Definition says_in (toks : list StrpSpec.tok) (s : list Z) (t : Z) : Prop :=
  exists m tail, s = StrpSpec.texts m toks ++ tail /\ StrpSpec.in_range m /\ StrpSpec.tells toks m (StrpModel.before_zero tail) /\ StrpSpec.bytes tail /\
    StrpModel.peek tail <> 46 /\ t = nanos (StrpSpec.year m) (StrpSpec.month m) (StrpSpec.mday m) + StrpSpec.time_of_day m.
