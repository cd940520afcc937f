(** C33: record arrays to columns. *)
From Verif Require Import Base Mem MemLemmas Par RecModel RecSpec RecProofs.
Local Open Scope Z_scope.

(** Every column receives its field of every record; the rest of its buffer is unchanged. For every order in which the writes of the
    threads reach memory. *)
Theorem C33_copy_partial : forall src isz rows fields ord fuel cols,
  length src = (rows * isz)%nat -> (0 < isz)%nat -> fields <> [] -> (forall o s, In (o, s) fields -> (o + s <= isz)%nat) ->
  fair ord -> (rows < fuel)%nat -> length cols = length fields ->
  (forall i o s c, nth_error fields i = Some (o, s) -> nth_error cols i = Some c -> (rows * s <= length c)%nat) ->
  RecordArrayToColMajor src (Z.of_nat isz) (map (fun f : nat * nat => (Z.of_nat (fst f), snd f)) fields) ord fuel rows cols =
    Some (map (fun p : (nat * nat) * list Z => column src isz (fst (fst p)) (snd (fst p)) rows (snd p)) (combine fields cols)).
Proof. intros. now apply RecordArrayToColMajor_ok. Qed.
Print Assumptions C33_copy_partial.

Example C33_example :
  let src := map Z.of_nat (seq 0 39) in
  RecordArrayToColMajor src 13 [(0, 1%nat); (1, 8%nat); (9, 4%nat)] in_order 4 3 [repeat 99 4; repeat 99 24; repeat 99 12] =
    Some [[0; 13; 26; 99]; map Z.of_nat (seq 1 8 ++ seq 14 8 ++ seq 27 8); [9; 10; 11; 12; 22; 23; 24; 25; 35; 36; 37; 38]] /\
  (forall o s, In (o, s) [(0, 1); (1, 8); (9, 4)]%nat -> (o + s <= 13)%nat).
Proof. split; [vm_compute; reflexivity|]. intros o s H. repeat destruct H as [[= <- <-]|H]; try lia. destruct H. Qed.

(** more than eight records: the gathers *)
Example C33_gather_example :
  RecordArrayToColMajor (map Z.of_nat (seq 0 240)) 12 [(0, 4%nat); (4, 8%nat); (1, 11%nat)] in_order 21 20 [repeat 0 80; repeat 0 160; repeat 0 220] =
  Some [concat (map (fun r => map Z.of_nat (seq (r * 12) 4)) (seq 0 20)); concat (map (fun r => map Z.of_nat (seq (r * 12 + 4) 8)) (seq 0 20));
        concat (map (fun r => map Z.of_nat (seq (r * 12 + 1) 11)) (seq 0 20))].
Proof. vm_compute. reflexivity. Qed.

(** a list of no columns and at least one record: no number of steps is enough *)
Theorem C33_no_columns_refuted : exists src isz rows, length src = (rows * isz)%nat /\ (0 < isz)%nat /\
  forall fuel ord, RecordArrayToColMajor src (Z.of_nat isz) [] ord fuel rows [] = None.
Proof.
  exists [7], 1%nat, 1%nat. split; [reflexivity|]. split; [lia|]. intros fuel ord. unfold RecordArrayToColMajor, rec_calls.
  change (chunk_calls (CHUNKSIZE <? 1)%nat CHUNKSIZE 1) with [(0%nat, 1%nat)]. cbn [map all_some]. rewrite convert_forever by (cbn; lia). reflexivity.
Qed.
Print Assumptions C33_no_columns_refuted.

(** records of no bytes: a division by zero *)
Theorem C33_empty_record_refuted : exists src fields rows cols, length src = (rows * 0)%nat /\ (forall o s, In (o, s) fields -> (o + s <= 0)%nat) /\ fields <> [] /\
  forall fuel ord, RecordArrayToColMajor src 0 (map (fun f : nat * nat => (Z.of_nat (fst f), snd f)) fields) ord fuel rows cols = None.
Proof.
  exists [], [(0%nat, 0%nat)], 1%nat, [[]]. split; [reflexivity|]. split; [intros o s [[= <- <-]|[]]; lia|]. split; [discriminate|]. intros. reflexivity.
Qed.
Print Assumptions C33_empty_record_refuted.

(** offsets are not checked against the record: a field beyond the last record is read *)
Theorem C33_offset_refuted : exists src isz rows fields cols, length src = (rows * isz)%nat /\
  forall ord, RecordArrayToColMajor src (Z.of_nat isz) fields ord 5 rows cols = None.
Proof. exists [1; 2; 3; 4], 2%nat, 2%nat, [(1, 2%nat)], [[0; 0; 0; 0]]. split; [reflexivity|]. intros. reflexivity. Qed.
Print Assumptions C33_offset_refuted.
