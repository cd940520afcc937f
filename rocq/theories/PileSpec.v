(** What is expected of files put together: definitions for the statements in PileProps.v. *)
From Verif Require Import Base.
From Verif Require Export SdsSpec PileModel.
Local Open Scope Z_scope.

(* f is an SDS file with the sections ws: made by saving, by appending a section, or by putting such files together *)
Inductive made (k : codec) : file -> list winfo -> Prop :=
| made_new : forall w sec es f f', saveable k w -> fresh sec f -> name_ok sec -> write_file k w sec es f = Some f' -> len f' < 2 ^ 62 -> made k f' [w]
| made_add : forall f ws w name es f', made k f ws -> saveable k w -> nul_free name -> write_file k w (Some name) es (Some f) = Some f' -> len f' < 2 ^ 62 ->
    made k f' (ws ++ [w])
| made_cat : forall must d ns o fs wss d' f' r, length fs = length wss ->
    (forall i f ws, nth_error fs i = Some f -> nth_error wss i = Some ws -> made k f ws) ->
    ns <> [] -> map d ns = map Some fs -> ~ In o ns -> MultiConcatFiles k must d ns o = Returns r d' -> d' o = Some f' -> len f' < 2 ^ 62 ->
    made k f' (concat wss).

(* the sections ws are read back from the offsets offs *)
Definition held (k : codec) (f : file) (ws : list winfo) (offs : list Z) : Prop :=
  Forall2 (fun w off => exists c, read_file k f off = Some c /\ restores w c) ws offs.

(* what is known of an input: the file with its sections; None: there is no such file *)
Definition input (k : codec) (d : disk) (n : fname) (x : option (file * list winfo)) : Prop :=
  match x with Some (f, ws) => d n = Some f /\ made k f ws | None => d n = None end.
Definition absent (x : option (file * list winfo)) : bool := match x with Some _ => false | None => true end.
Definition all_sections (xs : list (option (file * list winfo))) : list winfo := concat (map (fun x => match x with Some (_, ws) => ws | None => [] end) xs).
