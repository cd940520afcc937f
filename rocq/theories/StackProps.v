(** C93: several SDS files stacked into one set of columns. *)
From Coq Require Import SpecFloat Reals.
From Verif Require SdsModel.
From Verif Require Import Base Inter ConvModel ConvSpec StackModel StackSpec StackProofs Stack2Proofs Stack3Proofs Stack4Proofs Stack5Proofs Stack6Proofs Stack7Proofs Stack8Proofs.
Local Open Scope Z_scope.

(** The columns of the result are the columns of the files that could be opened, each name once, in the order in which the names appear; the
    flags are those of the first array of the name. *)
Theorem C93_columns must reserve fs ps : ReadAndStackFiles must reserve fs = Some ps -> Forall file_ok (valid_files fs) ->
  map p_name ps = all_names (valid_files fs) /\
  Forall (fun p => exists c, find (fun c => name_eqb (co_name c) (p_name p)) (concat (map s_cols (valid_files fs))) = Some c /\ p_enum p = co_enum c) ps.
Proof. exact (column_names must reserve fs ps). Qed.
Print Assumptions C93_columns.

(** The rows of a column are those of the files one after another, and the rows that were reserved; the offsets say where each file begins. *)
Theorem C93_rows must reserve fs ps p : ReadAndStackFiles must reserve fs = Some ps -> Forall file_ok (valid_files fs) -> In p ps ->
  let rows := map (rows_of (p_name p)) (valid_files fs) in
  p_rows p = sum rows + reserve (sum rows) /\ length (p_offsets p) = S (length (valid_files fs)) /\
  (forall i, (i < length (valid_files fs))%nat -> nth_error (p_offsets p) i = Some (sum (firstn i rows))) /\
  nth_error (p_offsets p) (length (valid_files fs)) = Some (p_rows p).
Proof. exact (column_rows must reserve fs ps p). Qed.
Print Assumptions C93_rows.

(** The type of a column can hold the arrays of all files; the rows of the arrays have one shape. Missing: 64-bit integers with other numbers. *)
Theorem C93_types_partial must reserve fs ps p f b d : ReadAndStackFiles must reserve fs = Some ps -> Forall file_ok (valid_files fs) -> In p ps ->
  In f (valid_files fs) -> part_of (p_name p) f = Some (b, d) ->
  tl (b_dims (p_block p)) = tl (b_dims b) /\
  ((exists t u, of_num (fixed b) = Some t /\ of_num (fixed (p_block p)) = Some u /\ b_item (p_block p) = size u /\ kept t u) \/
   (text_block b /\ text_block (p_block p) /\
    ((b_dtype b = b_dtype (p_block p) /\ b_item b <= b_item (p_block p)) \/
     (b_dtype b = SDS_STRING /\ b_dtype (p_block p) = SDS_UNICODE /\ 4 * b_item b <= b_item (p_block p))))).
Proof. exact (column_types must reserve fs ps p f b d). Qed.
Print Assumptions C93_types_partial.

(** However the threads take turns, and whatever the new array held: the column gets the items of the files one after another. Missing:
    Fortran order, texts of several widths in arrays of more than one dimension, texts of bytes whose width does not match a column of unicode
    texts, arrays without rows in a dataset with rows, rows without data in a column of long doubles, 2^31 items or more. *)
Theorem C93_stack_partial must reserve fs ps p : ReadAndStackFiles must reserve fs = Some ps -> Forall file_ok (valid_files fs) -> (forall n, 0 <= n -> 0 <= reserve n) -> In p ps ->
  stackable (valid_files fs) p ->
  exists progs, p_tasks p = map Some progs /\
  forall l mem, interleave progs l -> len mem = p_bytes p ->
  exists bodies junk, run l mem = Some (concat (concat bodies) ++ junk) /\
    Forall2 (contributes (p_name p) (p_block p)) (valid_files fs) bodies /\ Forall2 (room_of (p_name p) (p_block p)) (valid_files fs) bodies.
Proof. exact (column_data must reserve fs ps p). Qed.
Print Assumptions C93_stack_partial.

(** An item of the column is the number that the item of the file is, if the type of the column has it. Missing: bools in a column of another type. *)
Theorem C93_numbers_partial must reserve fs ps p f b d t u x y r : ReadAndStackFiles must reserve fs = Some ps -> Forall file_ok (valid_files fs) -> In p ps ->
  In f (valid_files fs) -> part_of (p_name p) f = Some (b, d) -> of_num (fixed b) = Some t -> of_num (fixed (p_block p)) = Some u -> t <> Bool \/ u = Bool ->
  item_ok (p_block p) b x y -> typed t (dec t x) -> invalid t <> Some (dec t x) -> denotes (dec t x) r -> representable u r ->
  typed u (dec u y) /\ denotes (dec u y) r.
Proof. exact (column_numbers must reserve fs ps p f b d t u x y r). Qed.
Print Assumptions C93_numbers_partial.
(** An invalid item stays invalid. *)
Theorem C93_invalid must reserve fs ps p f b d t u x y v w : ReadAndStackFiles must reserve fs = Some ps -> Forall file_ok (valid_files fs) -> In p ps ->
  In f (valid_files fs) -> part_of (p_name p) f = Some (b, d) -> of_num (fixed b) = Some t -> of_num (fixed (p_block p)) = Some u ->
  item_ok (p_block p) b x y -> invalid t = Some v -> invalid u = Some w -> dec t x = v -> dec u y = w.
Proof. exact (column_invalid must reserve fs ps p f b d t u x y v w). Qed.
Print Assumptions C93_invalid.

(** Files whose arrays of one name are alike can be stacked. *)
Theorem C93_no_error must reserve fs : valid_files fs <> [] -> (must = true -> length (valid_files fs) = length fs) -> Forall file_ok (valid_files fs) ->
  (forall a b, In a (concat (map s_cols (valid_files fs))) -> In b (concat (map s_cols (valid_files fs))) -> co_name a = co_name b -> alike (fst (co_part a)) (fst (co_part b))) ->
  exists ps, ReadAndStackFiles must reserve fs = Some ps.
Proof. exact (no_error must reserve fs). Qed.
Print Assumptions C93_no_error.

(** ** Cases *)
Definition flat (d item n : Z) : block := B d item [n] true true.
Definition only (cols : list column) : option sfile := Some (F true cols).
(* a: int32, then double, then missing; s: texts of two, then three bytes *)
Definition three : list (option sfile) :=
  [only [Col [97] 1 (flat 5 4 2, le 4 3 ++ le 4 (2 ^ 31)); Col [115] 1 (flat 18 2 2, [97; 98; 99; 0])];
   None;
   only [Col [97] 1 (flat 12 8 1, enc F64 (VF (S754_finite false 6755399441055744 (-52))))];
   only [Col [115] 1 (flat 18 3 1, [100; 101; 102])]].
Lemma flat_ok d item n data : number_block (flat d item n) \/ text_block (flat d item n) -> 0 <= n -> len data = n * item -> forallb (fun b => (0 <=? b) && (b <? 256)) data = true -> part_ok (flat d item n, data).
Proof.
  intros H1 H2 H3 H4. constructor; cbn [fst snd flat b_dims b_item]; auto.
  - split; [discriminate|]. constructor; auto.
  - unfold product. cbn [fold_right]. lia.
  - apply Forall_forall. rewrite forallb_forall in H4. intros b Hb. specialize (H4 b Hb). lia.
Qed.
Ltac distinct := repeat (apply NoDup_cons; [cbn; intuition discriminate|]); apply NoDup_nil.
Lemma three_ok : Forall file_ok (valid_files three).
Proof.
  repeat (apply Forall_cons; [constructor; [repeat (apply Forall_cons; [apply flat_ok; [|lia|reflexivity|reflexivity]|]); [..|apply Forall_nil]|distinct]|]); [..|apply Forall_nil].
  - left. exists I32. split; reflexivity.
  - right. split; [left; reflexivity|reflexivity].
  - left. exists F64. split; reflexivity.
  - right. split; [left; reflexivity|reflexivity].
Qed.
Example C93_case : match ReadAndStackFiles false (fun _ => 0) three with
  | Some [a; s] =>
      p_name a = [97] /\ b_dtype (p_block a) = 12 /\ b_dims (p_block a) = [4] /\ p_offsets a = [0; 2; 3; 4] /\
      sequential a (repeat 170 32) = Some (enc F64 (VF (S754_finite false 6755399441055744 (-51))) ++ enc F64 (VF S754_nan) ++ enc F64 (VF (S754_finite false 6755399441055744 (-52))) ++ enc F64 (VF S754_nan)) /\
      p_name s = [115] /\ b_dtype (p_block s) = 18 /\ b_item (p_block s) = 3 /\ p_offsets s = [0; 2; 3; 4] /\
      sequential s (repeat 170 12) = Some [97; 98; 0; 99; 0; 0; 0; 0; 0; 100; 101; 102]
  | _ => False
  end.
Proof. cbv zeta. vm_compute. repeat split. Qed.
(* the plans, by number *)
Definition planned (must : bool) (fs : list (option sfile)) : list plan := match ReadAndStackFiles must (fun _ => 0) fs with Some ps => ps | None => [] end.
Definition nth_plan (must : bool) (fs : list (option sfile)) (i : nat) : plan := nth i (planned must fs) (Plan [] 0 (B 0 0 [] true true) [] 0 []).
Definition count_plans (must : bool) (fs : list (option sfile)) : option nat := option_map (@length plan) (ReadAndStackFiles must (fun _ => 0) fs).
Lemma one_plan must fs : count_plans must fs = Some 1%nat -> ReadAndStackFiles must (fun _ => 0) fs = Some [nth_plan must fs 0].
Proof. unfold count_plans, nth_plan, planned. destruct (ReadAndStackFiles must (fun _ => 0) fs) as [[|p [|q r]]|]; try discriminate. reflexivity. Qed.
Lemma two_plans must fs : count_plans must fs = Some 2%nat -> ReadAndStackFiles must (fun _ => 0) fs = Some [nth_plan must fs 0; nth_plan must fs 1].
Proof. unfold count_plans, nth_plan, planned. destruct (ReadAndStackFiles must (fun _ => 0) fs) as [[|p [|q [|q' r]]]|]; try discriminate. reflexivity. Qed.
Example C93_case_hypotheses : exists p q, ReadAndStackFiles false (fun _ => 0) three = Some [p; q] /\ stackable (valid_files three) p /\ stackable (valid_files three) q.
Proof.
  exists (nth_plan false three 0), (nth_plan false three 1). split; [apply two_plans; vm_compute; reflexivity|].
  assert (E : p_block (nth_plan false three 0) = flat 12 8 4 /\ p_block (nth_plan false three 1) = flat 18 3 4 /\ p_rows (nth_plan false three 0) = 4 /\ p_rows (nth_plan false three 1) = 4) by (vm_compute; auto).
  assert (N : p_name (nth_plan false three 0) = [97] /\ p_name (nth_plan false three 1) = [115]) by (vm_compute; auto).
  destruct E as (E1 & E2 & E3 & E4), N as [N1 N2]. split.
  - constructor; rewrite ?N1, ?E1, ?E3; [reflexivity|reflexivity| |].
    + intros f b d [<- | [<- | [<- | []]]] H; vm_compute in H; try discriminate H; apply some_inj in H; apply pair_equal_spec in H as [<- _]; (split; [split; intros [[H | [H _]] _]; discriminate H|intros H; vm_compute in H; discriminate H]).
    + intros f _ _. discriminate.
  - constructor; rewrite ?N2, ?E2, ?E4; [reflexivity|reflexivity| |].
    + intros f b d [<- | [<- | [<- | []]]] H; vm_compute in H; try discriminate H; apply some_inj in H; apply pair_equal_spec in H as [<- _]; (split; [split; [intros _ _; right; reflexivity|intros _ H; now elim H]|intros H; vm_compute in H; discriminate H]).
    + intros f _ _. discriminate.
Qed.
Example C93_alike_case : forall a b, In a (concat (map s_cols (valid_files three))) -> In b (concat (map s_cols (valid_files three))) -> co_name a = co_name b -> alike (fst (co_part a)) (fst (co_part b)).
Proof.
  assert (N : number_block (flat 5 4 2) /\ number_block (flat 12 8 1)) by (split; [exists I32|exists F64]; split; reflexivity).
  assert (T : text_block (flat 18 2 2) /\ text_block (flat 18 3 1)) by (split; split; [left; reflexivity|reflexivity|left; reflexivity|reflexivity]).
  destruct N as [N1 N2], T as [T1 T2].
  intros a b [<- | [<- | [<- | [<- | []]]]] [<- | [<- | [<- | [<- | []]]]]; cbn; intros E; try discriminate E; (split; [reflexivity|]); (split; [reflexivity|]); (split; [reflexivity|]); (split; [reflexivity|]); auto.
Qed.

(** ** What is missing *)
Definition two (b : block) (d : list Z) (c : block) (e : list Z) : list (option sfile) := [only [Col [97] 1 (b, d)]; only [Col [97] 1 (c, e)]].
Local Notation plain := (fun _ => 0).
(** False of a file with bools is the invalid value in a column of int8. *)
Theorem C93_bools_refuted : exists n m d e p out, ReadAndStackFiles true plain (two (flat 0 1 n) d (flat 1 1 m) e) = Some [p] /\ of_num (fixed (p_block p)) = Some I8 /\
  sequential p (repeat 170 (Z.to_nat (p_bytes p))) = Some out /\ nth_error d 0 = Some 0 /\ option_map (fun b => dec I8 [b]) (nth_error out 0) = invalid I8.
Proof. exists 1, 1, [0], [5], (nth_plan true (two (flat 0 1 1) [0] (flat 1 1 1) [5]) 0). eexists. split; [apply one_plan; vm_compute; reflexivity|]. split; [vm_compute; reflexivity|]. split; [vm_compute; reflexivity|]. split; vm_compute; reflexivity. Qed.
Print Assumptions C93_bools_refuted.
(** A large uint64 is a negative number when another file has int8. *)
Theorem C93_uint64_refuted : exists d e p out, ReadAndStackFiles true plain (two (flat 10 8 1) d (flat 1 1 1) e) = Some [p] /\ of_num (fixed (p_block p)) = Some I64 /\
  sequential p (repeat 170 (Z.to_nat (p_bytes p))) = Some out /\ dec U64 d = VI (2 ^ 63 + 1) /\ dec I64 (firstn 8 out) = VI (- 2 ^ 63 + 1).
Proof. exists (le 8 (2 ^ 63 + 1)), [5], (nth_plan true (two (flat 10 8 1) (le 8 (2 ^ 63 + 1)) (flat 1 1 1) [5]) 0). eexists. split; [apply one_plan; vm_compute; reflexivity|]. split; [vm_compute; reflexivity|]. split; [vm_compute; reflexivity|]. split; vm_compute; reflexivity. Qed.
Print Assumptions C93_uint64_refuted.
(** The type of a column depends on the order of the files. *)
Theorem C93_type_order_refuted : exists f g h p q, ReadAndStackFiles true plain [f; g; h] = Some [p] /\ ReadAndStackFiles true plain [h; f; g] = Some [q] /\
  of_num (fixed (p_block p)) = Some F64 /\ of_num (fixed (p_block q)) = Some F32.
Proof.
  set (f := only [Col [97] 1 (flat 4 2 0, [])]). set (g := only [Col [97] 1 (flat 3 2 0, [])]). set (h := only [Col [97] 1 (flat 11 4 0, [])]).
  exists f, g, h, (nth_plan true [f; g; h] 0), (nth_plan true [h; f; g] 0). split; [apply one_plan; vm_compute; reflexivity|]. split; [apply one_plan; vm_compute; reflexivity|]. split; vm_compute; reflexivity.
Qed.
Print Assumptions C93_type_order_refuted.
(** Texts of two widths in arrays with two dimensions: the second text of a row moves into the first one. *)
Theorem C93_text_rows_refuted : exists b d c e p, ReadAndStackFiles true plain (two b d c e) = Some [p] /\ b_dtype b = SDS_STRING /\ b_item b = 1 /\ b_dims b = [1; 2] /\ d = [97; 98] /\
  b_item (p_block p) = 2 /\ sequential p (repeat 170 (Z.to_nat (p_bytes p))) = Some [97; 98; 0; 0; 99; 100; 101; 102].
Proof.
  eexists (B 18 1 [1; 2] true false), [97; 98], (B 18 2 [1; 2] true false), [99; 100; 101; 102], _. split; [vm_compute; reflexivity|].
  split; [reflexivity|]. split; [reflexivity|]. split; [reflexivity|]. split; [reflexivity|]. split; [reflexivity|]. vm_compute. reflexivity.
Qed.
Print Assumptions C93_text_rows_refuted.
(** Two texts of one byte in a column of unicode texts with two characters become one text; what follows is not written. *)
Theorem C93_text_unicode_refuted : exists d e p, ReadAndStackFiles true plain (two (flat 18 1 2) d (flat 19 8 1) e) = Some [p] /\ d = [97; 98] /\
  forall x, exists r, sequential p (repeat x (Z.to_nat (p_bytes p))) = Some ([97; 0; 0; 0; 98; 0; 0; 0] ++ [x; x; x; x; x; x; x; x] ++ r).
Proof.
  exists [97; 98], (repeat 0 8), (nth_plan true (two (flat 18 1 2) [97; 98] (flat 19 8 1) (repeat 0 8)) 0). split; [apply one_plan; vm_compute; reflexivity|]. split; [reflexivity|].
  intros x. exists (repeat 0 8). vm_compute. reflexivity.
Qed.
Print Assumptions C93_text_unicode_refuted.
(** An array in Fortran order between one that has one row and one in C order: its cells change their places. *)
Theorem C93_order_refuted : exists b x o y c z p out,
  ReadAndStackFiles true plain [only [Col [97] 1 (b, x)]; only [Col [97] 1 (o, y)]; only [Col [97] 1 (c, z)]] = Some [p] /\
  sequential p (repeat 170 (Z.to_nat (p_bytes p))) = Some out /\ b_item o = 1 /\ b_dims o = [2; 2] /\ p_offsets p = [0; 1; 3; 5] /\
  nth (Z.to_nat (cell o 0 1)) y 0 = 4 /\ nth (Z.to_nat (cell (p_block p) (1 + 0) 1)) out 0 = 5.
Proof.
  eexists (B 1 1 [1; 2] true true), [1; 2], (B 1 1 [2; 2] false true), [3; 5; 4; 6], (B 1 1 [2; 2] true false), [7; 8; 9; 10], _, _. split; [vm_compute; reflexivity|].
  split; [vm_compute; reflexivity|]. split; [reflexivity|]. split; [reflexivity|]. split; [reflexivity|]. split; vm_compute; reflexivity.
Qed.
Print Assumptions C93_order_refuted.
(** The rows of an array without rows, in a dataset with rows, are left as they were. *)
Theorem C93_empty_refuted : exists f p q, ReadAndStackFiles true plain [f] = Some [p; q] /\ p_rows p = 1 /\ forall x, sequential p [x] = Some [x].
Proof. eexists (only [Col [98] 1 (flat 1 1 0, []); Col [97] 1 (flat 1 1 1, [5])]), _, _. split; [vm_compute; reflexivity|]. split; [reflexivity|]. intros x. reflexivity. Qed.
Print Assumptions C93_empty_refuted.
(** A row without data in a column of long doubles is 0, not NaN. *)
Theorem C93_long_double_refuted : exists f g p q out, ReadAndStackFiles true plain [f; g] = Some [p; q] /\ of_num (fixed (p_block q)) = Some F80 /\
  sequential q (repeat 170 32) = Some out /\ dec F80 (firstn 16 out) = VF (S754_zero false).
Proof.
  eexists (only [Col [97] 1 (flat 1 1 1, [5])]), (only [Col [98] 1 (flat 13 16 1, repeat 1 16)]), _, _, _. split; [vm_compute; reflexivity|]. split; [reflexivity|].
  split; [vm_compute; reflexivity|]. vm_compute. reflexivity.
Qed.
Print Assumptions C93_long_double_refuted.
(** complex64 in a column of complex128: the bytes as they are. *)
Theorem C93_complex_refuted : exists d e p, ReadAndStackFiles true plain (two (flat 14 8 1) d (flat 15 16 1) e) = Some [p] /\ b_item (p_block p) = 16 /\ d = repeat 1 8 /\
  forall x, exists r, sequential p (repeat x 32) = Some (repeat 1 8 ++ repeat x 8 ++ r).
Proof. eexists (repeat 1 8), (repeat 2 16), _. split; [vm_compute; reflexivity|]. split; [reflexivity|]. split; [reflexivity|]. intros x. eexists. cbv. reflexivity. Qed.
Print Assumptions C93_complex_refuted.
(** Fortran order: a file without the texts calls a function that does not exist; another type reads behind the bytes of the file. *)
Theorem C93_fortran_refuted : exists f g p q b d c e r, ReadAndStackFiles true plain [f; g] = Some [p; q] /\ In None (p_tasks p) /\
  ReadAndStackFiles true plain (two b d c e) = Some [r] /\ In None (p_tasks r).
Proof.
  eexists (only [Col [97] 1 (B 18 1 [1; 2] false true, [1; 2])]), (only [Col [98] 1 (flat 1 1 1, [1])]), _, _, (B 1 1 [2; 2] false true), [1; 2; 3; 4], (B 3 2 [1; 2] false true), [1; 0; 2; 0], _.
  split; [vm_compute; reflexivity|]. split; [vm_compute; auto|]. split; [vm_compute; reflexivity|]. vm_compute. auto.
Qed.
Print Assumptions C93_fortran_refuted.

(* the types 7 and 8 (long, unsigned long) stand for the type of the same size, as when one file is read (C31) *)
Theorem C93_type_as_read : forall d item : Z, (FixupDType d item = SdsModel.FixupDType d item) /\
  (d = 7 -> item = 8 -> FixupDType d item = 9) /\ (d = 7 -> item = 4 -> FixupDType d item = 5) /\
  (d = 8 -> item = 8 -> FixupDType d item = 10) /\ (d = 8 -> item = 4 -> FixupDType d item = 6) /\ (d <> 7 -> d <> 8 -> FixupDType d item = d).
Proof.
  intros d item. split; [unfold FixupDType, SdsModel.FixupDType, SDS_LONG, SDS_ULONG, SDS_INT, SDS_UINT, SDS_LONGLONG, SDS_ULONGLONG; destruct (Z.eqb_spec d 7); [destruct (item =? 4) | destruct (d =? 8)]; reflexivity|].
  do 4 (split; [intros -> ->; reflexivity|]). intros N7 N8. unfold FixupDType, SDS_LONG, SDS_ULONG.
  apply Z.eqb_neq in N7, N8. rewrite N7, N8. reflexivity.
Qed.
Print Assumptions C93_type_as_read.
