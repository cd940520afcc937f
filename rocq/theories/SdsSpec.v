(** What is expected of a saved file: definitions for the statements in SdsProps.v. *)
From Verif Require Import Base.
From Verif Require Export SdsModel.
Local Open Scope Z_scope.

(* ZSTD gives back what was compressed; what it writes is not empty *)
Definition codec_ok (k : codec) : Prop := forall cap x y, comp k cap x = Some y -> decomp k y = Some x /\ y <> [].
(* ZSTD does not fail when the destination has ZSTD_compressBound bytes *)
Definition codec_total (k : codec) : Prop := forall x, comp k (bound k (len x)) x <> None.

Definition nul_free (s : list Z) : Prop := Forall (fun c => c <> 0) s.

(* an array with one to five dimensions *)
Record array_ok (a : array) : Prop := {
  ao_ndim : (1 <= length (a_dims a) <= 5)%nat;
  ao_strides : length (a_strides a) = length (a_dims a);
  ao_dims : Forall (fun d => 0 <= d < 2 ^ 63) (a_dims a);
  ao_steps : Forall (fun d => - 2 ^ 63 <= d < 2 ^ 63) (a_strides a);
  ao_item : 0 < a_item a < 2 ^ 31;
  ao_dtype : 0 <= a_dtype a < 128;
  ao_flags : 0 <= a_flags a < 0x8000;
  ao_data : len (a_data a) = product (a_dims a) * a_item a;
  ao_small : len (a_data a) < 2 ^ 63 }.

(* the band size that is used: SDSFile.cpp:2871-2873 *)
Definition band_used (w : winfo) : Z := if (w_band w <? 10000) && (0 <? w_band w) then 10000 else w_band w.
(* the bands with their table take as many bytes as the array itself *)
Definition collision (k : codec) (w : winfo) (a : array) : Prop :=
  let '(bytes, count, _) := pack_array k (w_comp w) (band_used w) a in 0 < count /\ len bytes = len (a_data a).

Record saveable (k : codec) (w : winfo) : Prop := {
  sv_arrays : Forall array_ok (w_arrays w);
  sv_bands : 0 < w_band w -> w_comp w = 1 -> w_band w < 2 ^ 31 /\ Forall (fun a => fld (a_dims a) 0 < 2 ^ 44) (w_arrays w);
  sv_collision : Forall (fun a => ~ collision k w a) (w_arrays w);
  sv_names : Forall (fun p => nul_free (fst p) /\ 0 <= snd p < 256) (w_names w);
  sv_count : w_names w = [] \/ (length (w_arrays w) <= length (w_names w))%nat;
  sv_meta : len (w_meta w) < 2 ^ 63 }.

(* types 7 and 8 (long, unsigned long) come back as the type of the same size that is not ambiguous *)
Definition same_type (item d d' : Z) : Prop :=
  d' = d \/ (d = 7 /\ (item = 4 /\ d' = 5 \/ item <> 4 /\ d' = 9)) \/ (d = 8 /\ (item = 4 /\ d' = 6 \/ item <> 4 /\ d' = 10)).
Definition restored (a : array) (g : got) : Prop :=
  match g with
  | GArray b => same_type (a_item a) (a_dtype a) (a_dtype b) /\ (a_dtype a <> 7 -> a_dtype a <> 8 -> a_dtype b = a_dtype a)
                /\ a_item b = a_item a /\ a_dims b = a_dims a /\ a_strides b = a_strides a /\ a_flags b = a_flags a /\ a_data b = a_data a
  | _ => False
  end.
Definition restores (w : winfo) (c : contents) : Prop :=
  c_names c = w_names w /\ c_meta c = Some (w_meta w) /\ Forall2 restored (w_arrays w) (c_arrays c).

(* every array is begun and then written, exactly once *)
Definition of_array (t : nat) (e : event) : bool := match e with Reserve u | Write u => Nat.eqb u t end.
Definition complete (n : nat) (es : list event) : Prop :=
  forall t, filter (of_array t) es = if (t <? n)%nat then [Reserve t; Write t] else [].

(* the calls that append sections to a file *)
Definition call : Type := winfo * list Z * list event.
Definition appended (cs : list call) : list (winfo * option (list Z) * list event) := map (fun '(w, name, es) => (w, Some name, es)) cs.
Definition call_winfo (c : call) : winfo := let '(w, _, _) := c in w.
Definition call_name (c : call) : list Z := let '(_, name, _) := c in name.
Definition call_events (c : call) : list event := let '(_, _, es) := c in es.
(* the name under which the first call's data is listed *)
Definition first_name (sec : option (list Z)) : list Z := match sec with Some name => name | None => [48] end.
(* the call makes a new file: no section, or the file is missing or empty *)
Definition fresh (sec : option (list Z)) (f : option file) : Prop := match sec, f with Some _, Some g => len g = 0 | _, _ => True end.
Definition name_ok (sec : option (list Z)) : Prop := match sec with Some name => nul_free name | None => True end.
(* the directory of sections after the first call and the calls cs, whose data is at offs *)
Definition listing (sec : option (list Z)) (cs : list call) (offs : list Z) : list (list Z * Z) :=
  match sec, cs with None, [] => [] | _, _ => combine (first_name sec :: map call_name cs) (0 :: offs) end.
