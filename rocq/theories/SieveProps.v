(** C95: reading an SDS file through a boolean mask. *)
From Verif Require Import Base.
From Verif Require MaskModel.
From Verif Require Import SdsModel SdsSpec SieveModel SieveSpec Sieve3Proofs Sieve4Proofs.
Local Open Scope Z_scope.

(* one file: the columns have the rows for which the mask is true, in their order; every other array is read as without the mask.
   Missing: masks without a true element, or longer than a column and false for one of its rows, empty columns, columns that are not in C order, masks with strides: refuted below; [unambiguous] is C31's collision *)
Theorem C95_mask_partial : forall k part v f off c, part_ok k part -> mask_ok v -> contiguous v -> read_file k f off = Some c -> unambiguous f off ->
  columns_ok v (file_type f off) c (fun a => 0 < len (a_data a) /\ fits v (rows a)) -> (exists i, is_true v i = true) ->
  exists gs, decompress_file k part f off v = Arrays gs /\ all_masked v (file_type f off) c gs.
Proof. intros k part v f off c PK MO CT. exact (file_masked k part PK v MO CT f off c). Qed.
Print Assumptions C95_mask_partial.

(* several files with one mask: masks without a true element and empty columns as well, and without the keyword a longer mask, as long as the columns have as many rows as the first array of the file *)
Theorem C95_many_partial : forall k part v fancy fs os n f c, part_ok k part -> mask_ok v -> contiguous v -> read_many k part fancy v fs = Some os ->
  nth_error fs n = Some f -> read_file k f 0 = Some c -> unambiguous f 0 -> arrays_ok c -> columns_ok v (file_type f 0) c (fun a => first_rows c (rows a)) ->
  exists gs, nth_error os n = Some (Arrays gs) /\ all_masked v (file_type f 0) c gs.
Proof. intros k part v fancy fs os n f c PK MO CT. exact (many_masked k part PK v MO CT fancy fs os n f c). Qed.
Print Assumptions C95_many_partial.

(* what was saved comes back through the mask *)
Theorem C95_saved_partial : forall k part v w es f f', part_ok k part -> codec_ok k -> mask_ok v -> contiguous v -> saveable k w ->
  write_file k w None es f = Some f' -> len f' < 2 ^ 62 -> - 32768 <= w_ftype w < 32768 ->
  saved_columns w (fun a => 0 < len (a_data a) /\ fits v (rows a)) -> (exists i, is_true v i = true) ->
  exists gs, decompress_file k part f' 0 v = Arrays gs /\ length gs = length (w_arrays w) /\
    forall t a g, nth_error (w_arrays w) t = Some a -> nth_error gs t = Some g -> came_back v w t a g.
Proof. intros k part v w es f f' PK OK MO CT. exact (saved_masked k part PK OK v MO CT w es f f'). Qed.
Print Assumptions C95_saved_partial.
Theorem C95_saved_many_partial : forall k part v fancy fs os n w es f f', part_ok k part -> codec_ok k -> mask_ok v -> contiguous v ->
  read_many k part fancy v fs = Some os -> nth_error fs n = Some f' -> saveable k w -> write_file k w None es f = Some f' -> len f' < 2 ^ 62 -> - 32768 <= w_ftype w < 32768 ->
  saved_columns w (fun a => exists a0, nth_error (w_arrays w) 0 = Some a0 /\ rows a0 = rows a) ->
  exists gs, nth_error os n = Some (Arrays gs) /\ length gs = length (w_arrays w) /\
    forall t a g, nth_error (w_arrays w) t = Some a -> nth_error gs t = Some g -> came_back v w t a g.
Proof. intros k part v fancy fs os n w es f f' PK OK MO CT. exact (saved_many k part PK OK v MO CT fancy fs os n w es f f'). Qed.
Print Assumptions C95_saved_many_partial.

(* several files: whatever bytes the files have, the call is not stopped, and every file has a result *)
Theorem C95_many_never_stops : forall k part v fancy fs os, mask_ok v -> contiguous v -> read_many k part fancy v fs = Some os ->
  length os = length fs /\ Forall (fun o => exists gs, o = Arrays gs) os.
Proof. intros k part v fancy fs os MO CT. exact (many_never_stops k part v MO CT fancy fs os). Qed.
Print Assumptions C95_many_never_stops.
(* the error: with the keyword fancy when the mask is longer than the first array of a file, with fancy = False when it has another length *)
Theorem C95_error : forall k part v fancy fs, mask_ok v -> contiguous v -> (forall f, In f fs -> exists c n, read_file k f 0 = Some c /\ first_rows c n) ->
  (read_many k part fancy v fs = None <->
   exists b f c n, fancy = Some b /\ In f fs /\ read_file k f 0 = Some c /\ first_rows c n /\ (n < Z.of_nat (MaskModel.len v) \/ (b = false /\ n <> Z.of_nat (MaskModel.len v)))).
Proof. intros k part v fancy fs MO CT. exact (many_error k part v MO CT fancy fs). Qed.
Print Assumptions C95_error.

(** ** The hypotheses are met *)
(* a codec that puts one byte in front, and makes one byte of four equal bytes *)
Definition four (x : list Z) : bool := match x with [a; b; c; d] => (a =? 5) && (b =? 5) && (c =? 5) && (d =? 5) | _ => false end.
Definition k4 : codec := K (fun cap x => Some (if four x then [0] else 1 :: x)) (fun y => match y with [0] => Some [5; 5; 5; 5] | 1 :: x => Some x | _ => None end) (fun n => n + 1).
Definition part4 (n : Z) (y : list Z) : list Z := firstn (Z.to_nat n) (match y with 0 :: _ => [5; 5; 5; 5] | _ :: x => x | [] => [] end).
Lemma k4_ok : codec_ok k4.
Proof.
  intros cap x y E. cbn in E. injection E as <-. destruct (four x) eqn:F; [|split; [reflexivity | discriminate]]. split; [|discriminate].
  destruct x as [|a [|b [|c [|d [|? ?]]]]]; try discriminate F. cbn in F. apply andb_prop in F as [F F4]. apply andb_prop in F as [F F3]. apply andb_prop in F as [F1 F2].
  apply Z.eqb_eq in F1, F2, F3, F4. subst. reflexivity.
Qed.
Lemma part4_ok : part_ok k4 part4.
Proof.
  split; [cbn; lia|]. intros bs x n c D N C. cbn in D. destruct bs as [|b bs]; [discriminate D|].
  assert (C1 : 1 <= c) by (unfold len in C; cbn [bound k4 length] in C; lia). replace (Z.to_nat c) with (S (Z.to_nat (c - 1))) by lia. cbn [firstn]. unfold part4.
  destruct b as [|p|p]; try discriminate D.
  - destruct bs; [|discriminate D]. injection D as <-. reflexivity.
  - destruct p; try discriminate D. injection D as <-. rewrite firstn_firstn. unfold len in *. cbn [bound k4 length] in C.
    destruct (Z.min_spec (Z.of_nat (S (length bs))) (n + 1 + 131072)) as [[_ E] | [_ E]]; rewrite E in C; f_equal; lia.
Qed.
Definition mask4 (l : list Z) : MaskModel.view Z := {| MaskModel.buf := l; MaskModel.start := 0; MaskModel.stride := 1; MaskModel.len := length l |}.
(* a compressed column of four bytes, a column of pairs of numbers of two bytes, an array that is not a column *)
Definition w4 : winfo := W [A 1 1 [4] [1] 0 [5; 5; 5; 5]; A 3 2 [4; 2] [4; 2] 0 [1; 0; 2; 0; 3; 0; 4; 0; 5; 0; 6; 0; 7; 0; 8; 0]; A 1 1 [2] [1] 0 [9; 9]]
  [([65], 1); ([66], 1); ([67], 4)] [] 1 1 3 0 0.
Definition all3 : list event := [Reserve 1; Reserve 0; Write 0; Reserve 2; Write 1; Write 2].
Example w4_saveable : saveable k4 w4.
Proof.
  constructor.
  - repeat constructor; cbn; lia.
  - cbn. lia.
  - repeat constructor; unfold collision; vm_compute; intros [? ?]; discriminate.
  - repeat constructor; cbn; lia.
  - right. cbn. lia.
  - cbn. lia.
Qed.
Lemma mask4_ok : forall l, Forall (fun b => b = 0 \/ b = 1) l -> mask_ok (mask4 l).
Proof.
  intros l F i H. unfold mask_at. cbn [mask4 MaskModel.buf MaskModel.start MaskModel.stride MaskModel.len] in *. replace (0 + 1 * i)%nat with i by lia.
  destruct (nth_error l i) eqn:E; [|apply nth_error_None in E; lia]. destruct (proj1 (Forall_forall _ _) F z (nth_error_In _ _ E)) as [-> | ->]; auto.
Qed.
Example C95_saved_ex : part_ok k4 part4 /\ codec_ok k4 /\ mask_ok (mask4 [0; 1; 1; 0]) /\ contiguous (mask4 [0; 1; 1; 0]) /\ saveable k4 w4 /\
  saved_columns w4 (fun a => 0 < len (a_data a) /\ fits (mask4 [0; 1; 1; 0]) (rows a)) /\ is_true (mask4 [0; 1; 1; 0]) 1 = true /\
  (do f <- write_file k4 w4 None all3 None; Some (decompress_file k4 part4 f 0 (mask4 [0; 1; 1; 0])))
  = Some (Arrays [GArray (A 1 1 [2] [1] 0 [5; 5]); GArray (A 3 2 [2; 2] [4; 2] 0 [3; 0; 4; 0; 5; 0; 6; 0]); GArray (A 1 1 [2] [1] 0 [9; 9])]).
Proof.
  split; [exact part4_ok|]. split; [exact k4_ok|]. split; [apply mask4_ok; repeat constructor; lia|]. split; [reflexivity|]. split; [exact w4_saveable|]. split; [|split; [reflexivity | vm_compute; reflexivity]].
  intros [|[|[|t]]] a E C; try (destruct t; discriminate E); injection E as <-; try (split; [reflexivity|]; split; [cbn; lia | left; cbn; lia]).
  exfalso. destruct C as (_ & C & _). discriminate C.
Qed.
(* a longer mask that is true for every row of the column *)
Example C95_longer_ex : fits (mask4 [1; 1; 1; 1; 0; 1]) 4 /\
  (do f <- write_file k4 w4 None all3 None; Some (decompress_file k4 part4 f 0 (mask4 [1; 1; 1; 1; 0; 1])))
  = Some (Arrays [GArray (A 1 1 [4] [1] 0 [5; 5; 5; 5]); GArray (A 3 2 [4; 2] [4; 2] 0 [1; 0; 2; 0; 3; 0; 4; 0; 5; 0; 6; 0; 7; 0; 8; 0]); GArray (A 1 1 [2] [1] 0 [9; 9])]).
Proof. split; [right; intros i H; do 4 (destruct i as [|i]; [reflexivity|]); lia | vm_compute; reflexivity]. Qed.
(* two files, an empty result *)
Example C95_many_ex :
  (do f <- write_file k4 w4 None all3 None; read_many k4 part4 None (mask4 [0; 0; 0; 0; 1]) [f; []])
  = Some [Arrays [GArray (A 1 1 [0] [1] 0 []); GArray (A 3 2 [0; 2] [4; 2] 0 []); GArray (A 1 1 [2] [1] 0 [9; 9])]; Arrays []] /\
  (do f <- write_file k4 w4 None all3 None; Some (read_many k4 part4 (Some true) (mask4 [0; 0; 0; 0; 1]) [f])) = Some None /\
  (do f <- write_file k4 w4 None all3 None; Some (read_many k4 part4 (Some false) (mask4 [0; 0; 1]) [f])) = Some None.
Proof. split; [|split]; vm_compute; reflexivity. Qed.

(** ** Refutations *)
Definition saved_then (k : codec) (part : Z -> list Z -> list Z) (w : winfo) (es : list event) (v : MaskModel.view Z) (gs : list got) (o : outcome) : Prop :=
  exists f' c, write_file k w None es None = Some f' /\ read_file k f' 0 = Some c /\ c_arrays c = gs /\ decompress_file k part f' 0 v = o.
Definition run_then (k : codec) (part : Z -> list Z -> list Z) (w : winfo) (es : list event) (v : MaskModel.view Z) : option (list got * outcome) :=
  do f <- write_file k w None es None; do c <- read_file k f 0; Some (c_arrays c, decompress_file k part f 0 v).
Lemma run_then_out : forall k part w es v gs o, run_then k part w es v = Some (gs, o) -> saved_then k part w es v gs o.
Proof.
  intros k part w es v gs o E. unfold run_then in E. unfold saved_then. destruct (write_file k w None es None) as [f'|]; [|discriminate E].
  destruct (read_file k f' 0) as [c|] eqn:R; [|discriminate E]. injection E as <- <-. exists f', c. auto.
Qed.
Definition one_column (a : array) : winfo := W [a] [([65], 1)] [] 0 1 2 0 0.
Definition only : list event := [Reserve 0; Write 0].
Definition bytes3 : array := A 1 1 [3] [1] 0 [7; 8; 9].

(* a mask without a true element: the process is stopped by a division by zero *)
Theorem C95_no_rows_refuted : exists k part w v a, part_ok k part /\ codec_ok k /\ mask_ok v /\ contiguous v /\ w_arrays w = [a] /\ column_of w 0 /\ c_order a /\ rows a = Z.of_nat (MaskModel.len v) /\
  saved_then k part w only v [GArray a] Crash.
Proof.
  exists k4, part4, (one_column bytes3), (mask4 [0; 0; 0]), bytes3. split; [exact part4_ok|]. split; [exact k4_ok|]. split; [apply mask4_ok; repeat constructor; lia|]. split; [reflexivity|].
  split; [reflexivity|]. split; [split; [now left | repeat split]|]. split; [reflexivity|]. split; [reflexivity|]. apply run_then_out. vm_compute. reflexivity.
Qed.
Print Assumptions C95_no_rows_refuted.
(* a mask longer than the column: bytes that were never written *)
Theorem C95_long_mask_refuted : exists k part w v a, part_ok k part /\ codec_ok k /\ mask_ok v /\ contiguous v /\ w_arrays w = [a] /\ column_of w 0 /\ c_order a /\ rows a < Z.of_nat (MaskModel.len v) /\
  saved_then k part w only v [GArray a] (Arrays [GGarbage]).
Proof.
  exists k4, part4, (one_column bytes3), (mask4 [0; 1; 1; 1]), bytes3. split; [exact part4_ok|]. split; [exact k4_ok|]. split; [apply mask4_ok; repeat constructor; lia|]. split; [reflexivity|].
  split; [reflexivity|]. split; [split; [now left | repeat split]|]. split; [reflexivity|]. split; [reflexivity|]. apply run_then_out. vm_compute. reflexivity.
Qed.
Print Assumptions C95_long_mask_refuted.
(* a matrix in Fortran order keeps the strides of the whole matrix: its elements lie outside of its memory *)
Definition fortran : array := A 1 1 [2; 2] [1; 2] 2 [1; 2; 3; 4].
Theorem C95_fortran_refuted : exists k part w v a b, part_ok k part /\ codec_ok k /\ mask_ok v /\ contiguous v /\ w_arrays w = [a] /\ column_of w 0 /\ rows a = Z.of_nat (MaskModel.len v) /\
  a_strides a = [1; fld (a_dims a) 0] /\ saved_then k part w only v [GArray a] (Arrays [GArray b]) /\ inside [0; 1] (a_dims b) /\ element b [0; 1] = None /\ element a [0; 1] = Some [3].
Proof.
  exists k4, part4, (one_column fortran), (mask4 [1; 0]), fortran, (A 1 1 [1; 2] [1; 2] 2 [1; 2]). split; [exact part4_ok|]. split; [exact k4_ok|]. split; [apply mask4_ok; repeat constructor; lia|]. split; [reflexivity|].
  split; [reflexivity|]. split; [split; [now left | repeat split]|]. split; [reflexivity|]. split; [reflexivity|]. split; [apply run_then_out; vm_compute; reflexivity|].
  split; [repeat constructor; lia|]. split; reflexivity.
Qed.
Print Assumptions C95_fortran_refuted.
(* every other element of an array as the mask: other rows are read *)
Definition every_other : MaskModel.view Z := {| MaskModel.buf := [0; 1; 1; 1; 0]; MaskModel.start := 0; MaskModel.stride := 2; MaskModel.len := 3 |}.
Theorem C95_strided_mask_refuted : exists k part w v a b, part_ok k part /\ codec_ok k /\ mask_ok v /\ w_arrays w = [a] /\ column_of w 0 /\ c_order a /\ rows a = Z.of_nat (MaskModel.len v) /\
  saved_then k part w only v [GArray a] (Arrays [GArray b]) /\ positions v (rows a) = [1%nat] /\ rows b = 2.
Proof.
  exists k4, part4, (one_column bytes3), every_other, bytes3, (A 1 1 [2] [1] 0 [8; 9]). split; [exact part4_ok|]. split; [exact k4_ok|].
  split; [intros [|[|[|i]]] H; cbn in *; auto; lia|].
  split; [reflexivity|]. split; [split; [now left | repeat split]|]. split; [reflexivity|]. split; [reflexivity|]. split; [apply run_then_out; vm_compute; reflexivity|]. split; reflexivity.
Qed.
Print Assumptions C95_strided_mask_refuted.
(* several files: a column with more rows than the first array of its file is written past its end *)
Definition uneven : winfo := W [A 1 1 [1] [1] 0 [7]; bytes3] [([65], 1); ([66], 1)] [] 0 1 2 0 0.
Definition all2 : list event := [Reserve 0; Write 0; Reserve 1; Write 1].
Theorem C95_first_array_refuted : exists k part w v a b f' c os, part_ok k part /\ codec_ok k /\ mask_ok v /\ contiguous v /\ w_arrays w = [a; b] /\ column_of w 1 /\ c_order b /\
  rows b = Z.of_nat (MaskModel.len v) /\ write_file k w None all2 None = Some f' /\ read_file k f' 0 = Some c /\ c_arrays c = [GArray a; GArray b] /\
  read_many k part None v [f'] = Some [Arrays os] /\ nth_error os 1 = Some GUndef.
Proof.
  assert (E : exists f' c, write_file k4 uneven None all2 None = Some f' /\ read_file k4 f' 0 = Some c /\ c_arrays c = [GArray (A 1 1 [1] [1] 0 [7]); GArray bytes3] /\
                           read_many k4 part4 None (mask4 [1; 1; 1]) [f'] = Some [Arrays [GArray (A 1 1 [1] [1] 0 [7]); GUndef]]).
  { assert (E : (do f <- write_file k4 uneven None all2 None; do c <- read_file k4 f 0; Some (c_arrays c, read_many k4 part4 None (mask4 [1; 1; 1]) [f]))
                = Some ([GArray (A 1 1 [1] [1] 0 [7]); GArray bytes3], Some [Arrays [GArray (A 1 1 [1] [1] 0 [7]); GUndef]])) by (vm_compute; reflexivity).
    destruct (write_file k4 uneven None all2 None) as [f'|]; [|discriminate E]. destruct (read_file k4 f' 0) as [c|] eqn:R; [|discriminate E]. injection E as E1 E2. exists f', c. auto. }
  destruct E as (f' & c & E1 & E2 & E3 & E4). exists k4, part4, uneven, (mask4 [1; 1; 1]), (A 1 1 [1] [1] 0 [7]), bytes3, f', c, [GArray (A 1 1 [1] [1] 0 [7]); GUndef].
  split; [exact part4_ok|]. split; [exact k4_ok|]. split; [apply mask4_ok; repeat constructor; lia|]. split; [reflexivity|]. split; [reflexivity|]. split; [split; [now left | repeat split]|]. split; [reflexivity|]. split; [reflexivity|].
  split; [exact E1|]. split; [exact E2|]. split; [exact E3|]. split; [exact E4|]. reflexivity.
Qed.
Print Assumptions C95_first_array_refuted.
