(** C31: what is saved in an SDS file is read back, also by section. *)
From Verif Require Import Base SdsModel SdsSpec SdsProofs Sds4Proofs Sds7Proofs.
Local Open Scope Z_scope.

(* a first call makes a file, any number of later calls append a section to it, the worker threads of every call in any order: the data of every call is read back
   from the offset under which the directory lists its name. Missing: the arrays with [collision], with no or more than 5 dimensions, with flag 0x8000;
   names with a 0 byte; more arrays than names; files from 2^62 bytes on *)
Theorem C31_sections_partial : forall k w0 sec es0 cs f f', codec_ok k -> saveable k w0 -> fresh sec f -> name_ok sec ->
  Forall (fun c => saveable k (call_winfo c) /\ nul_free (call_name c)) cs ->
  write_all k ((w0, sec, es0) :: appended cs) f = Some (Some f') -> len f' < 2 ^ 62 ->
  exists c0 offs, read_file k f' 0 = Some c0 /\ restores w0 c0 /\ length offs = length cs /\ c_sections c0 = listing sec cs offs
    /\ Forall2 (fun c off => exists c', read_file k f' off = Some c' /\ restores (call_winfo c) c') cs offs.
Proof. exact sections_read. Qed.
Print Assumptions C31_sections_partial.

(* a file without sections *)
Theorem C31_read_back_partial : forall k w es f f', codec_ok k -> saveable k w ->
  write_file k w None es f = Some f' -> len f' < 2 ^ 62 ->
  exists c, read_file k f' 0 = Some c /\ restores w c /\ c_sections c = [].
Proof.
  intros k w es f f' OK SV E SM.
  destruct (sections_read k w None es [] f f' OK SV I I (Forall_nil _)) as [c [offs [R1 [R2 [R3 [R4 _]]]]]]; [cbn; rewrite E; reflexivity | assumption |].
  exists c. auto.
Qed.
Print Assumptions C31_read_back_partial.

(* saving succeeds, in every order of the worker threads in which every array is begun and written once *)
Theorem C31_first_call_succeeds : forall k w sec es f, codec_ok k -> codec_total k -> fresh sec f -> complete (length (w_arrays w)) es ->
  exists f', write_file k w sec es f = Some f'.
Proof. exact fresh_succeeds. Qed.
Print Assumptions C31_first_call_succeeds.

Theorem C31_next_call_succeeds : forall k w0 sec es0 cs f f' w name es, codec_ok k -> codec_total k -> saveable k w0 -> fresh sec f -> name_ok sec ->
  Forall (fun c => saveable k (call_winfo c) /\ nul_free (call_name c)) cs ->
  write_all k ((w0, sec, es0) :: appended cs) f = Some (Some f') -> len f' < 2 ^ 62 -> complete (length (w_arrays w)) es ->
  exists f2, write_file k w (Some name) es (Some f') = Some f2.
Proof. exact next_succeeds. Qed.
Print Assumptions C31_next_call_succeeds.

(** ** Refutations *)
(* a codec that makes one byte of nine zero bytes and one byte more of anything else *)
Definition zeros9 (x : list Z) : bool := match x with [0; 0; 0; 0; 0; 0; 0; 0; 0] => true | _ => false end.
Definition k9 : codec := K (fun cap x => Some (if zeros9 x then [0] else 1 :: x))
  (fun y => match y with [0] => Some (repeat 0 9) | 1 :: x => Some x | _ => None end) (fun n => n + 1).
Lemma zeros9_true : forall x, zeros9 x = true -> x = repeat 0 9.
Proof.
  intros x H. do 9 (destruct x as [|[|p|p] x]; try discriminate H). destruct x; [reflexivity | discriminate H].
Qed.
Lemma k9_ok : codec_ok k9.
Proof.
  intros cap x y E. cbn in E. injection E as <-. destruct (zeros9 x) eqn:Z9; [|split; [reflexivity | discriminate]].
  apply zeros9_true in Z9. subst x. split; [reflexivity | discriminate].
Qed.
Lemma k9_total : codec_total k9.
Proof. intros x. discriminate. Qed.

Definition saved_and_read (k : codec) (w : winfo) (es : list event) : option (list got) :=
  do f <- write_file k w None es None; do c <- read_file k f 0; Some (c_arrays c).
Lemma saved_and_read_out : forall k w es gs, saved_and_read k w es = Some gs ->
  exists f' c, write_file k w None es None = Some f' /\ read_file k f' 0 = Some c /\ c_arrays c = gs.
Proof.
  intros k w es gs E. unfold saved_and_read in E. destruct (write_file k w None es None) as [f'|]; [|discriminate E].
  destruct (read_file k f' 0) as [c|] eqn:R; [|discriminate E]. injection E as <-. exists f', c. auto.
Qed.

Definition w9 : winfo := W [A 1 1 [9] [1] 0 (repeat 0 9)] [([65], 0)] [] 1 1 0 10000 0.
Definition w6 : winfo := W [A 1 1 [1; 1; 1; 1; 1; 2] [2; 2; 2; 2; 2; 1] 0 [7; 8]] [([65], 0)] [] 0 1 0 0 0.
Definition w0d : winfo := W [A 1 1 [] [] 0 [7]] [([65], 0)] [] 0 1 0 0 0.
Definition one_array : list event := [Reserve 0; Write 0].

(* nine zero bytes saved with bands: the table of one band and its one compressed byte take nine bytes; the reader takes the equal size for "not compressed" *)
Theorem C31_size_collision_refuted : exists k w es f' c a b, codec_ok k /\ codec_total k /\ w_arrays w = [a] /\ array_ok a /\ complete 1 es
  /\ write_file k w None es None = Some f' /\ read_file k f' 0 = Some c /\ c_arrays c = [GArray b] /\ a_data a = repeat 0 9 /\ a_data b = 1 :: repeat 0 8.
Proof.
  destruct (saved_and_read_out k9 w9 one_array [GArray (A 1 1 [9] [1] 0 (1 :: repeat 0 8))]) as [f' [c [E [R Q]]]]; [vm_compute; reflexivity|].
  exists k9, w9, one_array, f', c. do 2 eexists. split; [exact k9_ok|]. split; [exact k9_total|]. split; [reflexivity|]. split.
  { constructor; cbn; try lia; repeat constructor; lia. }
  split; [|split; [exact E | split; [exact R | split; [exact Q | split; reflexivity]]]]. intros [|[|t]]; reflexivity.
Qed.
Print Assumptions C31_size_collision_refuted.

(* six dimensions: five are kept; the bytes of all six are read into an array of the first five *)
Theorem C31_six_dimensions_refuted : exists k w es f' c a, codec_ok k /\ codec_total k /\ w_arrays w = [a] /\ length (a_dims a) = 6%nat
  /\ len (a_data a) = product (a_dims a) * a_item a /\ complete 1 es
  /\ write_file k w None es None = Some f' /\ read_file k f' 0 = Some c /\ c_arrays c = [GUndef].
Proof.
  destruct (saved_and_read_out k9 w6 one_array [GUndef]) as [f' [c [E [R Q]]]]; [vm_compute; reflexivity|].
  exists k9, w6, one_array, f', c. eexists. split; [exact k9_ok|]. split; [exact k9_total|]. split; [reflexivity|]. split; [reflexivity|]. split; [reflexivity|].
  split; [|split; [exact E | split; [exact R | exact Q]]]. intros [|[|t]]; reflexivity.
Qed.
Print Assumptions C31_six_dimensions_refuted.

(* no dimension: nothing comes back *)
Theorem C31_scalar_refuted : exists k w es f' c a, codec_ok k /\ codec_total k /\ w_arrays w = [a] /\ a_dims a = []
  /\ len (a_data a) = product (a_dims a) * a_item a /\ complete 1 es
  /\ write_file k w None es None = Some f' /\ read_file k f' 0 = Some c /\ c_arrays c = [GNone].
Proof.
  destruct (saved_and_read_out k9 w0d one_array [GNone]) as [f' [c [E [R Q]]]]; [vm_compute; reflexivity|].
  exists k9, w0d, one_array, f', c. eexists. split; [exact k9_ok|]. split; [exact k9_total|]. split; [reflexivity|]. split; [reflexivity|]. split; [reflexivity|].
  split; [|split; [exact E | split; [exact R | exact Q]]]. intros [|[|t]]; reflexivity.
Qed.
Print Assumptions C31_scalar_refuted.

(** ** The hypotheses are met *)
(* two arrays, one of them of two dimensions and compressed in bands, saved without a section while the threads write in the other order; then one section *)
Definition ex_first : winfo := W [A 1 1 [9] [1] 0 (repeat 0 9); A 5 4 [1; 2] [8; 4] 2 [1; 2; 3; 4; 5; 6; 7; 8]] [([65; 66], 0); ([67], 1)] [9; 9] 1 1 0 0 77.
Definition ex_next : winfo := W [A 1 1 [2] [1] 0 [5; 6]] [([65], 0)] [] 1 1 0 20000 78.
Definition ex_orders : list event := [Reserve 1; Reserve 0; Write 0; Write 1].
Ltac five_ok := constructor; cbn; try lia; repeat constructor; lia.
Example ex_first_saveable : saveable k9 ex_first.
Proof.
  constructor; cbn [ex_first w_arrays w_band w_comp w_names w_meta].
  - constructor; [five_ok|]. constructor; [five_ok | constructor].
  - lia.
  - repeat constructor; unfold collision; vm_compute; intros [X _]; discriminate X.
  - repeat constructor; cbn; lia.
  - right. cbn. lia.
  - cbn. lia.
Qed.
Example ex_next_saveable : saveable k9 ex_next.
Proof.
  constructor; cbn [ex_next w_arrays w_band w_comp w_names w_meta].
  - constructor; [five_ok | constructor].
  - intros _ _. split; [reflexivity|]. repeat constructor.
  - repeat constructor. unfold collision. vm_compute. intros [_ X]. discriminate X.
  - repeat constructor; cbn; lia.
  - right. cbn. lia.
  - cbn. lia.
Qed.
Example ex_complete : complete (length (w_arrays ex_first)) ex_orders.
Proof. intros [|[|t]]; reflexivity. Qed.
Example ex_calls : exists f', write_all k9 ((ex_first, None, ex_orders) :: appended [(ex_next, [88], one_array)]) None = Some (Some f') /\ len f' < 2 ^ 62.
Proof.
  assert (L : option_map (option_map len) (write_all k9 ((ex_first, None, ex_orders) :: appended [(ex_next, [88], one_array)]) None) = Some (Some 5632)) by (vm_compute; reflexivity).
  destruct (write_all k9 _ None) as [[f'|]|]; try discriminate L. exists f'. split; [reflexivity|]. cbn in L. injection L as L. lia.
Qed.
