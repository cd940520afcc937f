(** src/DateTime.cpp: dates and times from text. No proofs in this file.
    A string is the list of its [itemSize] characters (padded with zeros); a read outside it is [None]. *)
From Verif Require Import Base Mem.
Local Open Scope Z_scope.

(* DateTime.cpp:38-42: position (pStart - pStartCopy) and position of the first error *)
Definition pst : Type := Z * option Z.

Definition is_digit (c : Z) : bool := (48 <=? c) && (c <=? 57).
(* std::isspace in the "C" locale; its argument must be an unsigned char or EOF *)
Definition isspace (c : Z) : option bool :=
  if (-1 <=? c) && (c <=? 255) then Some ((c =? 32) || ((9 <=? c) && (c <=? 13))) else None.

Section Row.
  Context (row : list Z).
  Local Notation n := (Z.of_nat (length row)).

  Definition adv (s : pst) : pst := (fst s + 1, snd s).
  (* DateTime.cpp:74-78 *)
  Definition set_error (s : pst) : pst := (fst s, match snd s with None => Some (fst s) | e => e end).
  (* DateTime.cpp:69-72 *)
  Definition at_end (s : pst) : option bool :=
    if fst s >=? n then Some true else match zrd row (fst s) with Some c => Some (c =? 0) | None => None end.

  (* DateTime.cpp:52-56 *)
  Fixpoint consume_leading (fuel : nat) (s : pst) : option pst :=
    match fuel with
    | O => None
    | S f =>
        match at_end s with
        | None => None
        | Some true => Some s
        | Some false =>
            match zrd row (fst s) with
            | None => None
            | Some c => match isspace c with None => None | Some true => consume_leading f (adv s) | Some false => Some s end
            end
        end
    end.
  (* DateTime.cpp:58-67 *)
  Fixpoint consume_trailing (fuel : nat) (s : pst) : option pst :=
    match fuel with
    | O => None
    | S f =>
        match at_end s with
        | None => None
        | Some true => Some s
        | Some false =>
            match zrd row (fst s) with
            | None => None
            | Some c => match isspace c with None => None | Some b => consume_trailing f (adv (if b then s else set_error s)) end
            end
        end
    end.

  (* DateTime.cpp:130-143 *)
  Definition ParseSingleNonNumber (expected : Z) (s : pst) : option (bool * pst) :=
    if fst s <? n then
      match zrd row (fst s) with
      | None => None
      | Some c => if is_digit c then Some (false, s) else Some (true, adv (if c =? expected then s else set_error s))
      end
    else Some (false, s).

  (* DateTime.cpp:153-163 *)
  Fixpoint skip_nondigits (fuel : nat) (s : pst) : option pst :=
    match fuel with
    | O => None
    | S f =>
        if fst s <? n then
          match zrd row (fst s) with
          | None => None
          | Some c => if is_digit c then Some s else skip_nondigits f (adv (set_error s))
          end
        else Some s
    end.
  (* DateTime.cpp:165-183, 95-112: at most [maxplaces] digits; the number, the places *)
  Fixpoint take_digits (fuel : nat) (maxplaces num places : Z) (s : pst) : option (Z * Z * pst) :=
    match fuel with
    | O => None
    | S f =>
        if fst s <? n then
          match zrd row (fst s) with
          | None => None
          | Some c =>
              if is_digit c then
                let num' := num * 10 + (c - 48) in
                if places + 1 =? maxplaces then Some (num', places + 1, adv s) else take_digits f maxplaces num' (places + 1) (adv s)
              else Some (num, places, s)
          end
        else Some (num, places, s)
    end.
  Local Notation fuel := (S (length row)).
  (* DateTime.cpp:150-184 *)
  Definition ParseNumber (maxplaces : Z) (s : pst) : option (Z * pst) :=
    match skip_nondigits fuel s with
    | None => None
    | Some s1 => match take_digits fuel maxplaces 0 0 s1 with None => None | Some (num, _, s2) => Some (num, s2) end
    end.
  (* DateTime.cpp:113-123: pad to nine places *)
  Definition pad9 (num places : Z) : Z :=
    let '(num1, places1) :=
      if places <=? 0 then (num * 1000 * 1000 * 1000, places + 9)
      else if places <=? 3 then (num * 1000 * 1000, places + 6)
      else if places <=? 6 then (num * 1000, places + 3)
      else (num, places) in
    if places1 =? 7 then num1 * 10 * 10 else if places1 =? 8 then num1 * 10 else num1.
  (* DateTime.cpp:90-127 *)
  Definition ParseDecimal (s : pst) : option (Z * pst) :=
    match take_digits fuel 9 0 0 s with None => None | Some (num, places, s1) => Some (pad9 num places, s1) end.

  (* DateTime.cpp:239-247, 439-448 *)
  Definition parse_fraction (ok : bool) (t : Z) (s : pst) : option (Z * pst) :=
    if fst s <? n then
      match zrd row (fst s) with
      | None => None
      | Some c =>
          if c =? 46 then match ParseDecimal (adv s) with None => None | Some (d, s1) => Some (if ok then t + d else t, s1) end
          else Some (t, s)
      end
    else Some (t, s).

  (* DateTime.cpp:217-231, 416-430: minutes and seconds, if there is a delimiter; whether there is one, and whether they are in range *)
  Definition parse_min_sec (s : pst) : option (bool * Z * Z * bool * pst) :=
    match ParseSingleNonNumber 58 s with
    | None => None
    | Some (false, s1) => Some (false, 0, 0, true, s1)
    | Some (true, s1) =>
        match ParseNumber 2 s1 with
        | None => None
        | Some (minute, s2) =>
            match ParseSingleNonNumber 58 s2 with
            | None => None
            | Some (false, s3) => Some (true, minute, 0, minute <? 60, s3)
            | Some (true, s3) =>
                match ParseNumber 2 s3 with
                | None => None
                | Some (seconds, s4) => Some (true, minute, seconds, (minute <? 60) && (seconds <? 60), s4)
                end
            end
        end
    end.

  (* DateTime.cpp:195-250: one row of ParseTimeString *)
  Definition ParseTime (e : option Z) : option (Z * option Z) :=
    match consume_leading fuel (0, e) with
    | None => None
    | Some s0 =>
        match at_end s0 with
        | None => None
        | Some true => Some (0, snd s0)
        | Some false =>
            match ParseNumber 2 s0 with
            | None => None
            | Some (hour, s1) =>
                match parse_min_sec s1 with
                | None => None
                | Some (colon, minute, seconds, ok, s2) =>
                    let good := (hour <? 24) && ok in
                    match (if colon then parse_fraction good (if good then 1000000000 * (hour * 3600 + minute * 60 + seconds) else 0) s2 else Some (0, s2)) with
                    | None => None
                    | Some (t, s3) => match consume_trailing fuel s3 with None => None | Some s4 => Some (t, snd s4) end
                    end
                end
            end
        end
    end.

  (* DateTime.cpp:335-344, 382-391 *)
  Definition parse_ymd (s : pst) : option (Z * Z * Z * pst) :=
    match ParseNumber 4 s with
    | None => None
    | Some (year, s1) =>
        match ParseSingleNonNumber 45 s1 with
        | None => None
        | Some (expect, s2) =>
            match ParseNumber 2 s2 with
            | None => None
            | Some (month, s3) =>
                match ParseSingleNonNumber 45 s3 with
                | None => None
                | Some (got, s4) =>
                    match ParseNumber 2 (if Bool.eqb expect got then s4 else set_error s4) with
                    | None => None
                    | Some (day, s5) => Some (year, month, day, s5)
                    end
                end
            end
        end
    end.
End Row.

(* DateTime.cpp:254-267 *)
Definition MONTH_SPLITS : list Z := [0; 31; 59; 90; 120; 151; 181; 212; 243; 273; 304; 334].
Definition MONTH_SPLITS_LEAP : list Z := [0; 31; 60; 91; 121; 152; 182; 213; 244; 274; 305; 335].
(* DateTime.cpp:269-272 *)
Definition NANOS_PER_DAY : Z := 1000000000 * 60 * 60 * 24.
(* DateTime.cpp:276-309; [None]: a read outside the tables *)
Definition YearToEpochNano (year month day : Z) : option Z :=
  if (1970 <=? year) && (year <=? 2099) && (1 <=? month) && (month <=? 12) && (1 <=? day) && (day <=? 31) then
    match zrd (if Z.rem year 4 =? 0 then MONTH_SPLITS_LEAP else MONTH_SPLITS) (month - 1) with
    | None => None
    | Some split =>
        let day' := split + day - 1 in
        let year' := year - 1970 in
        Some ((year' * 365 + Z.quot (year' + 1) 4 + day') * NANOS_PER_DAY)
    end
  else Some (-1).

(* DateTime.cpp:320-353: one row of ParseDateString *)
Definition ParseDate (row : list Z) (e : option Z) : option (Z * option Z) :=
  let fuel := S (length row) in
  match consume_leading row fuel (0, e) with
  | None => None
  | Some s0 =>
      match at_end row s0 with
      | None => None
      | Some true => Some (0, snd s0)
      | Some false =>
          match parse_ymd row s0 with
          | None => None
          | Some (year, month, day, s1) =>
              match YearToEpochNano year month day with
              | None => None
              | Some r => match consume_trailing row fuel s1 with None => None | Some s2 => Some (if r <? 0 then 0 else r, snd s2) end
              end
          end
      end
  end.

(* DateTime.cpp:406-431: the clock of ParseDateTimeString *)
Definition parse_clock (row : list Z) (s : pst) : option (Z * Z * Z * bool * pst) :=
  if fst s <? Z.of_nat (length row) then
    match zrd row (fst s) with
    | None => None
    | Some c =>
        if is_digit c then Some (0, 0, 0, true, s)
        else
          match ParseNumber row 2 (adv (if (c =? 84) || (c =? 32) then s else set_error s)) with
          | None => None
          | Some (hour, s1) =>
              match parse_min_sec row s1 with
              | None => None
              | Some (_, minute, seconds, ok, s2) => Some (hour, minute, seconds, (hour <? 24) && ok, s2)
              end
          end
    end
  else Some (0, 0, 0, true, s).

(* DateTime.cpp:366-452: one row of ParseDateTimeString *)
Definition ParseDateTime (row : list Z) (e : option Z) : option (Z * option Z) :=
  let fuel := S (length row) in
  match consume_leading row fuel (0, e) with
  | None => None
  | Some s0 =>
      match at_end row s0 with
      | None => None
      | Some true => Some (0, snd s0)
      | Some false =>
          match parse_ymd row s0 with
          | None => None
          | Some (year, month, day, s1) =>
              match YearToEpochNano year month day with
              | None => None
              | Some y =>
                  let date := if y <? 0 then 0 else y in
                  match parse_clock row s1 with
                  | None => None
                  | Some (hour, minute, seconds, ok, s2) =>
                      let good := (0 <=? y) && ok in
                      match parse_fraction row good (if good then date + 1000000000 * (hour * 3600 + minute * 60 + seconds) else date) s2 with
                      | None => None
                      | Some (t, s3) => match consume_trailing row fuel s3 with None => None | Some s4 => Some (t, snd s4) end
                      end
                  end
              end
          end
      end
  end.

(* DateTime.cpp:193, 318, 364: all rows; [err]: the row and the position of the first error, which becomes a warning *)
Fixpoint parse_rows (parse : list Z -> option Z -> option (Z * option Z)) (rows : list (list Z)) (i : nat) (err : option (nat * Z)) : option (list Z * option (nat * Z)) :=
  match rows with
  | [] => Some ([], err)
  | row :: rows' =>
      match parse row None with
      | None => None
      | Some (t, e) =>
          let err' := match err, e with None, Some p => Some (i, p) | _, _ => err end in
          match parse_rows parse rows' (S i) err' with None => None | Some (ts, err'') => Some (t :: ts, err'') end
      end
  end.

(** ** strptime *)

Record tm := { tm_year : Z; tm_mon : Z; tm_mday : Z; tm_hour : Z; tm_min : Z; tm_sec : Z }.
(* DateTime.cpp:677-730: one row of ParseStrptime after rt_strptime has returned the fields and the position where it stopped, or failed *)
Definition strptime_row (row : list Z) (res : option (tm * Z)) : option Z :=
  let text := row ++ [0] in
  match res with
  | Some (t, stop) =>
      if tm_year t =? 0 then Some 0
      else
        match YearToEpochNano (tm_year t + 1900) (tm_mon t + 1) (tm_mday t), zrd text stop with
        | Some y, Some c =>
            let r := y + 1000000000 * (tm_hour t * 3600 + tm_min t * 60 + tm_sec t) in
            if c =? 46 then
              match ParseDecimal row (stop + 1, None) with Some (d, _) => Some (if 0 <=? r + d then r + d else 0) | None => None end
            else Some (if 0 <=? r then r else 0)
        | _, _ => None
        end
  | None => Some 0
  end.
