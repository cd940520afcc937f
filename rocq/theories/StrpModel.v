(** src/strptime5.cpp rt_strptime and src/DateTime.cpp ParseStrptime: times from texts by a format. No proofs in this file.
    A text and a format are the lists of their characters before the terminating zero, so the head of an empty list is 0.
    Of the fields of [tm] only those that ParseStrptime uses are kept: not tm_wday, tm_yday and tm_isdst. The macros TM_GMTOFF, TM_ZONE
    and _TM_DEFINED are taken to be undefined, as they are with glibc. isspace and strncasecmp are those of the "C" locale. *)
From Coq Require Import Ascii String.
From Verif Require Import Base Mem DateModel.
Import ListNotations.
Local Open Scope Z_scope.

Definition ch (a : ascii) : Z := Z.of_nat (nat_of_ascii a).
Definition str (s : string) : list Z := map ch (list_ascii_of_string s).
(* the character at bp *)
Definition peek (bp : list Z) : Z := hd 0 bp.
Definition space (c : Z) : bool := (c =? 32) || ((9 <=? c) && (c <=? 13)).
Definition lower (c : Z) : Z := if (65 <=? c) && (c <=? 90) then c + 32 else c.

(* strptime5.cpp:68-75 *)
Definition day : list (list Z) := map str ["Sunday"; "Monday"; "Tuesday"; "Wednesday"; "Thursday"; "Friday"; "Saturday"]%string.
Definition abday : list (list Z) := map str ["Sun"; "Mon"; "Tue"; "Wed"; "Thu"; "Fri"; "Sat"]%string.
Definition mon : list (list Z) :=
  map str ["January"; "February"; "March"; "April"; "May"; "June"; "July"; "August"; "September"; "October"; "November"; "December"]%string.
Definition abmon : list (list Z) := map str ["Jan"; "Feb"; "Mar"; "Apr"; "May"; "Jun"; "Jul"; "Aug"; "Sep"; "Oct"; "Nov"; "Dec"]%string.
Definition am_pm : list (list Z) := map str ["AM"; "PM"]%string.
(* strptime5.cpp:63-64 *)
Definition nast : list (list Z) := map str ["EST"; "CST"; "MST"; "PST"]%string.
Definition nadt : list (list Z) := map str ["EDT"; "CDT"; "MDT"; "PDT"]%string.

(* strptime5.cpp:102-103, 505-506 *)
Fixpoint skip_space (bp : list Z) : list Z := match bp with c :: r => if space c then skip_space r else bp | [] => [] end.
(* strptime5.cpp:530-537 *)
Fixpoint conv_loop (ulim : Z) (buf : list Z) (result rulim : Z) : Z * list Z :=
  match buf with
  | [] => (result, [])
  | c :: buf' =>
      let result' := result * 10 + (c - 48) in
      let rulim' := rulim / 10 in
      if (result' * 10 <=? ulim) && negb (rulim' =? 0) && is_digit (peek buf') then conv_loop ulim buf' result' rulim' else (result', buf')
  end.
(* strptime5.cpp:518-544: the number and the rest, or NULL *)
Definition conv_num (buf : list Z) (llim ulim : Z) : option (Z * list Z) :=
  if is_digit (peek buf) then
    let '(result, buf') := conv_loop ulim buf 0 ulim in
    if (result <? llim) || (result >? ulim) then None else Some (result, buf')
  else None.
(* strptime5.cpp:556-561: the rest if strncasecmp is 0 *)
Fixpoint match_name (name bp : list Z) : option (list Z) :=
  match name, bp with
  | [], _ => Some bp
  | n :: name', c :: bp' => if lower n =? lower c then match_name name' bp' else None
  | _ :: _, [] => None
  end.
(* strptime5.cpp:554-562 *)
Fixpoint find_from (i : Z) (names : list (list Z)) (bp : list Z) : option (Z * list Z) :=
  match names with
  | [] => None
  | n :: names' => match match_name n bp with Some r => Some (i, r) | None => find_from (i + 1) names' bp end
  end.
(* strptime5.cpp:546-567: [n2] is empty for NULL *)
Definition find_string (bp : list Z) (n1 n2 : list (list Z)) : option (Z * list Z) :=
  match find_from 0 n1 bp with Some x => Some x | None => find_from 0 n2 bp end.

(** The result of rt_strptime: NULL, or the fields, split_year and the rest of the text; [Over]: bp has gone past the terminating zero. *)
Inductive res := Fail | Over | Go (t : tm) (split : bool) (bp : list Z).

(* strptime5.cpp:49-55 *)
Definition ALT_E : Z := 1.
Definition ALT_O : Z := 2.
Definition legal (x alt : Z) (r : res) : res := if Z.land alt (Z.lnot x) =? 0 then r else Fail.

Definition set_year (t : tm) (v : Z) : tm := {| tm_year := v; tm_mon := tm_mon t; tm_mday := tm_mday t; tm_hour := tm_hour t; tm_min := tm_min t; tm_sec := tm_sec t |}.
Definition set_mon (t : tm) (v : Z) : tm := {| tm_year := tm_year t; tm_mon := v; tm_mday := tm_mday t; tm_hour := tm_hour t; tm_min := tm_min t; tm_sec := tm_sec t |}.
Definition set_mday (t : tm) (v : Z) : tm := {| tm_year := tm_year t; tm_mon := tm_mon t; tm_mday := v; tm_hour := tm_hour t; tm_min := tm_min t; tm_sec := tm_sec t |}.
Definition set_hour (t : tm) (v : Z) : tm := {| tm_year := tm_year t; tm_mon := tm_mon t; tm_mday := tm_mday t; tm_hour := v; tm_min := tm_min t; tm_sec := tm_sec t |}.
Definition set_min (t : tm) (v : Z) : tm := {| tm_year := tm_year t; tm_mon := tm_mon t; tm_mday := tm_mday t; tm_hour := tm_hour t; tm_min := v; tm_sec := tm_sec t |}.
Definition set_sec (t : tm) (v : Z) : tm := {| tm_year := tm_year t; tm_mon := tm_mon t; tm_mday := tm_mday t; tm_hour := tm_hour t; tm_min := tm_min t; tm_sec := v |}.

(* bp = conv_num(...), then a use of the number *)
Definition num (bp : list Z) (llim ulim : Z) (k : Z -> list Z -> res) : res := match conv_num bp llim ulim with Some (i, r) => k i r | None => Fail end.

(* strptime5.cpp:297-299 *)
Fixpoint skip_digits (bp : list Z) : list Z := match bp with c :: r => if is_digit c then skip_digits r else bp | [] => [] end.
(* strptime5.cpp:459-473: at most four digits, with a colon after two; how many there are, the number, the rest.  The colon may come more than once. *)
Fixpoint offset_digits (bp : list Z) (i offs : Z) : Z * Z * list Z :=
  if i <? 4 then
    match bp with
    | c :: r => if is_digit c then offset_digits r (i + 1) (offs * 10 + (c - 48)) else if (i =? 2) && (c =? ch ":") then offset_digits r i offs else (i, offs, bp)
    | [] => (i, offs, bp)
    end
  else (i, offs, bp).
(* strptime5.cpp:458-498 *)
Definition zone_offset (t : tm) (split : bool) (bp : list Z) : res :=
  let '(i, offs, r) := offset_digits bp 0 0 in
  if i =? 2 then Go t split r
  else if i =? 4 then (if 60 <=? offs mod 100 then Fail else Go t split r)
  else Fail.
(* strptime5.cpp:380-498: the offset itself is not kept *)
Definition zone (t : tm) (split : bool) (bp0 : list Z) : res :=
  let bp := skip_space bp0 in
  let c := peek bp in
  let after := tl bp in
  if c =? ch "G" then (if (peek after =? ch "M") && (peek (tl after) =? ch "T") then Go t split (tl (tl after)) else Fail)
  else if c =? ch "U" then (if peek after =? ch "T" then Go t split (tl after) else Fail)
  else if c =? ch "Z" then Go t split after
  else if c =? ch "+" then zone_offset t split after
  else if c =? ch "-" then zone_offset t split after
  else match find_string bp nast [] with
  | Some (_, r) => Go t split r
  | None =>
      match find_string bp nadt [] with
      | Some (_, r) => Go t split r
      | None => if ((ch "A" <=? c) && (c <=? ch "I")) || ((ch "L" <=? c) && (c <=? ch "Y")) then Go t split after else Fail
      end
  end.

Section Run.
  Context (again : list Z -> tm -> list Z -> res).
  (* strptime5.cpp:168-171: split_year is a variable of each call *)
  Definition recurse (fmt : string) (t : tm) (split : bool) (bp : list Z) : res :=
    match again (str fmt) t bp with Go t' _ r => Go t' split r | x => x end.

  (* strptime5.cpp:111-512: the conversion [c] with the modifiers [alt] *)
  Definition exec (alt c : Z) (t : tm) (split : bool) (bp : list Z) : res :=
    if c =? ch "%" then (if peek bp =? c then legal 0 alt (Go t split (tl bp)) else Fail)
    else if c =? ch "c" then legal ALT_E alt (recurse "%x %X" t split bp)
    else if c =? ch "D" then legal 0 alt (recurse "%m/%d/%y" t split bp)
    else if c =? ch "F" then legal 0 alt (recurse "%Y-%m-%d" t split bp)
    else if c =? ch "R" then legal 0 alt (recurse "%H:%M" t split bp)
    else if c =? ch "r" then legal 0 alt (recurse "%I:%M:%S %p" t split bp)
    else if c =? ch "T" then legal 0 alt (recurse "%H:%M:%S" t split bp)
    else if c =? ch "X" then legal ALT_E alt (recurse "%H:%M:%S" t split bp)
    else if c =? ch "x" then legal ALT_E alt (recurse "%m/%d/%y" t split bp)
    else if (c =? ch "A") || (c =? ch "a") then
      legal 0 alt (match find_string bp day abday with Some (_, r) => Go t split r | None => Fail end)
    else if (c =? ch "B") || (c =? ch "b") || (c =? ch "h") then
      legal 0 alt (match find_string bp mon abmon with Some (i, r) => Go (set_mon t i) split r | None => Fail end)
    else if c =? ch "C" then
      legal ALT_E alt (num bp 0 99 (fun i r => Go (set_year t (i * 100 - 1900 + (if split then Z.rem (tm_year t) 100 else 0))) true r))
    else if (c =? ch "d") || (c =? ch "e") then legal ALT_O alt (num bp 1 31 (fun i r => Go (set_mday t i) split r))
    else if c =? ch "k" then legal 0 alt (num bp 0 23 (fun i r => Go (set_hour t i) split r))
    else if c =? ch "H" then legal ALT_O alt (num bp 0 23 (fun i r => Go (set_hour t i) split r))
    else if c =? ch "l" then legal 0 alt (num bp 1 12 (fun i r => Go (set_hour t (if i =? 12 then 0 else i)) split r))
    else if c =? ch "I" then legal ALT_O alt (num bp 1 12 (fun i r => Go (set_hour t (if i =? 12 then 0 else i)) split r))
    else if c =? ch "j" then legal 0 alt (num bp 1 366 (fun _ r => Go t split r))
    else if c =? ch "M" then legal ALT_O alt (num bp 0 59 (fun i r => Go (set_min t i) split r))
    else if c =? ch "m" then legal ALT_O alt (num bp 1 12 (fun i r => Go (set_mon t (i - 1)) split r))
    else if c =? ch "p" then
      (if 11 <? tm_hour t then Fail
       else legal 0 alt (match find_string bp am_pm [] with Some (i, r) => Go (set_hour t (tm_hour t + i * 12)) split r | None => Fail end))
    else if c =? ch "S" then legal ALT_O alt (num bp 0 61 (fun i r => Go (set_sec t i) split r))
    else if (c =? ch "U") || (c =? ch "W") then legal ALT_O alt (num bp 0 53 (fun _ r => Go t split r))
    else if c =? ch "w" then legal ALT_O alt (num bp 0 6 (fun _ r => Go t split r))
    else if c =? ch "u" then legal ALT_O alt (num bp 1 7 (fun _ r => Go t split r))
    else if c =? ch "g" then num bp 0 99 (fun _ r => Go t split r)
    else if c =? ch "G" then match bp with [] => Over | _ :: r => Go t split (skip_digits r) end
    else if c =? ch "V" then num bp 0 53 (fun _ r => Go t split r)
    else if c =? ch "Y" then legal ALT_E alt (num bp 0 9999 (fun i r => Go (set_year t (i - 1900)) split r))
    else if c =? ch "y" then
      num bp 0 99 (fun i r => Go (set_year t (if split then i + Z.quot (tm_year t) 100 * 100 else if i <=? 68 then i + 2000 - 1900 else i + 1900 - 1900)) true r)
    else if c =? ch "Z" then
      (if (peek bp =? ch "G") && (peek (tl bp) =? ch "M") && (peek (tl (tl bp)) =? ch "T") then Go t split (tl (tl (tl bp))) else Go t split bp)
    else if c =? ch "z" then zone t split bp
    else if (c =? ch "n") || (c =? ch "t") then legal 0 alt (Go t split (skip_space bp))
    else Fail.

  (* strptime5.cpp:93-515; 125-133: a second modifier fails *)
  Fixpoint run (fmt : list Z) (t : tm) (split : bool) (bp : list Z) : res :=
    match fmt with
    | [] => Go t split bp
    | c :: f1 =>
        if space c then run f1 t split (skip_space bp)
        else if negb (c =? ch "%") then (if peek bp =? c then run f1 t split (tl bp) else Fail)
        else
          match f1 with
          | [] => Fail
          | d :: f2 =>
              if (d =? ch "E") || (d =? ch "O") then
                match f2 with
                | [] => Fail
                | e :: f3 =>
                    match exec (if d =? ch "E" then ALT_E else ALT_O) e t split bp with Go t' s' r => run f3 t' s' r | x => x end
                end
              else match exec 0 d t split bp with Go t' s' r => run f2 t' s' r | x => x end
          end
    end.
End Run.
(* strptime5.cpp:84-516: a call calls itself at most twice, one within the other ("%c", "%x") *)
Fixpoint strptime_n (n : nat) (fmt : list Z) (t : tm) (bp : list Z) : res :=
  match n with O => Fail | S n' => run (strptime_n n') fmt t false bp end.
Definition rt_strptime : list Z -> tm -> list Z -> res := strptime_n 3.

(** ** ParseStrptime *)
Definition tm0 : tm := {| tm_year := 0; tm_mon := 0; tm_mday := 0; tm_hour := 0; tm_min := 0; tm_sec := 0 |}.
Fixpoint before_zero (l : list Z) : list Z := match l with c :: r => if c =? 0 then [] else c :: before_zero r | [] => [] end.
(* DateTime.cpp:665-731: one row of [itemSize] characters, cut to eight bits; [None]: a read after the terminating zero *)
Definition StrptimeToNanos (fmt row : list Z) : option Z :=
  let temp := map (fun c => c mod 256) row in
  let text := before_zero temp in
  match rt_strptime (before_zero fmt) tm0 text with
  | Over => None
  | Fail => strptime_row temp None
  | Go t _ rest => strptime_row temp (Some (t, Z.of_nat (length text) - Z.of_nat (length rest)))
  end.
