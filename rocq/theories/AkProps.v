(** Properties C122 and C123: MultiKeyAlign32 and MultiKeyIsMember32 from their arguments to their results. *)
From Verif Require Import Base Mem Num AllModel EaModel EaSpec.
From Verif Require Import HashSpec MkModel MkSpec RkModel RkSpec RkProofs AkModel AkSpec AkProofs.
Local Open Scope Z_scope.

(** ** C122.  Missing: tuples of three or more columns ([C122_three_refuted]), times with gaps in memory ([C122_gaps_refuted]), dates
    ([C122_dates_refuted]), times that do not go up. *)
Theorem C122_integers_partial : forall crc_bytes d n1 n2 k1 k2 size a1 a2 none forward exact,
  tables_ok n1 n2 k1 k2 -> int_time (a_dtype a1) none -> int_time (a_dtype a2) none -> ints_ok n1 none a1 -> ints_ok n2 none a2 ->
  exists r dtype bad, MultiKeyAlign32Call crc_bytes d k1 k2 (TInt size a1) (TInt size a2) forward exact = Done (Some (dtype, r)) /\ align_type n1 n2 dtype bad /\
    asof_spec Z.lt (fun x => x <> none) exact (table n1 (cols_of k1)) (table n2 (cols_of k2)) (arg_vals 0 a1) (arg_vals 0 a2) forward bad r.
Proof. exact int_call. Qed.
Print Assumptions C122_integers_partial.
Theorem C122_floats_partial : forall crc_bytes d n1 n2 k1 k2 s1 s2 a1 a2 forward exact,
  tables_ok n1 n2 k1 k2 -> a_dtype a1 = 11 \/ a_dtype a1 = 12 -> a_dtype a2 = a_dtype a1 -> floats_ok n1 a1 -> floats_ok n2 a2 ->
  exists r dtype bad, MultiKeyAlign32Call crc_bytes d k1 k2 (TFloat s1 a1) (TFloat s2 a2) forward exact = Done (Some (dtype, r)) /\ align_type n1 n2 dtype bad /\
    asof_spec (fun x y => flt x y = true) (fun x => is_nan x = false) exact (table n1 (cols_of k1)) (table n2 (cols_of k2)) (arg_vals NaN a1) (arg_vals NaN a2) forward bad r.
Proof. exact float_call. Qed.
Print Assumptions C122_floats_partial.
Theorem C122_columns_refused : forall crc_bytes d k1 k2 v1 v2 forward exact, keys_fit k1 \/ keys_bad k1 -> keys_fit k2 \/ keys_bad k2 -> keys_bad k1 \/ keys_bad k2 ->
  MultiKeyAlign32Call crc_bytes d k1 k2 v1 v2 forward exact = Error.
Proof. exact align_refused. Qed.
Print Assumptions C122_columns_refused.
Theorem C122_times_refused : forall crc_bytes d n1 n2 k1 k2 v1 v2 forward exact, keys_ok n1 k1 -> keys_ok n2 k2 ->
  times_bad n1 n2 v1 v2 \/ total_size (cols_of k1) <> total_size (cols_of k2) -> MultiKeyAlign32Call crc_bytes d k1 k2 v1 v2 forward exact = Error.
Proof. exact times_refused. Qed.
Print Assumptions C122_times_refused.

Definition times (d size : Z) (l : list Z) : time_array := TInt size (mkArg d l 0 1 (Z.of_nat (length l))).
(** Symbols of one byte and venues of two. *)
Definition C122_left : roll_keys := KeysTuple [bytes 2 1 [[7]; [3]; [7]; [7]]; bytes 18 2 [[65; 66]; [65; 66]; [65; 66]; [67; 68]]].
Definition C122_right : roll_keys := KeysList [bytes 2 1 [[7]; [3]; [7]]; bytes 18 2 [[65; 66]; [65; 66]; [65; 66]]].
Definition C122_time1 : arg Z := mkArg 7 [10; 20; 30; 40] 0 1 4.
Definition C122_time2 : arg Z := mkArg 9 [5; 20; 28] 0 1 3.
Example C122_example : tables_ok 4 3 C122_left C122_right /\ int_time (a_dtype C122_time1) (-9223372036854775808) /\ int_time (a_dtype C122_time2) (-9223372036854775808) /\
  ints_ok 4 (-9223372036854775808) C122_time1 /\ ints_ok 3 (-9223372036854775808) C122_time2 /\
  MultiKeyAlign32Call (fun l => nth 0 l 0) 77 C122_left C122_right (TInt 8 C122_time1) (TInt 8 C122_time2) false true = Done (Some (5, [0; 1; 2; -2147483648])) /\
  MultiKeyAlign32Call (fun l => nth 0 l 0) 77 C122_left C122_right (TInt 8 C122_time1) (TInt 8 C122_time2) false false = Done (Some (5, [0; -2147483648; 2; -2147483648])) /\
  MultiKeyAlign32Call (fun l => nth 0 l 0) 77 C122_left C122_right (TInt 8 C122_time1) (TInt 8 C122_time2) true true = Done (Some (5, [2; 1; -2147483648; -2147483648])).
Proof.
  assert (C : forall d size l, 0 <= d <= 20 -> d <> 11 -> d <> 12 -> forallb (fun x => (Z.of_nat (length x) =? size) && forallb (fun b => (0 <=? b) && (b <? 256)) x) l = true -> column_ok (Z.of_nat (length l)) (bytes d size l)).
  { intros d size l HD N1 N2 F. unfold column_ok, bytes. split; [exact HD|]. split; [contradiction|]. split; [contradiction|]. split.
    { unfold arg_ok. cbn [a_len a_start a_mem a_step]. split; [lia|]. split; [lia|intros; lia]. }
    split; [now right|]. rewrite forallb_forall in F. unfold arg_vals. cbn [a_len a_start a_mem a_step]. apply Forall_forall. intros x Hx. apply in_map_iff in Hx as (i & <- & Hi). apply in_seq in Hi.
    rewrite Nat2Z.id in Hi. assert (Hx : In (nth (Z.to_nat (0 + Z.of_nat i * 1)) l []) l) by (apply nth_In; lia). specialize (F _ Hx). apply andb_prop in F as (F1 & F2). apply Z.eqb_eq in F1.
    split; [exact F1|]. rewrite forallb_forall in F2. apply Forall_forall. intros b Hb. specialize (F2 b Hb). lia. }
  assert (S4 : time_sorted Z.lt (fun x => x <> -9223372036854775808) [10; 20; 30; 40]).
  { intros i j x y L Ei Ej _ _. do 5 (destruct i as [|i]; [do 5 (destruct j as [|j]; cbn in Ei, Ej; try discriminate; try lia; try (injection Ei as <-; injection Ej as <-; lia)); destruct j; discriminate|]). destruct i; discriminate. }
  assert (S3 : time_sorted Z.lt (fun x => x <> -9223372036854775808) [5; 20; 28]).
  { intros i j x y L Ei Ej _ _. do 4 (destruct i as [|i]; [do 4 (destruct j as [|j]; cbn in Ei, Ej; try discriminate; try lia; try (injection Ei as <-; injection Ej as <-; lia)); destruct j; discriminate|]). destruct i; discriminate. }
  split.
  { split; [|split; [|reflexivity]].
    - split; [|cbn; lia]. split; [lia|]. split; [discriminate|]. split; [|exact Logic.I]. cbn [cols_of C122_left C122_right]. repeat (apply Forall_cons; [refine (C _ _ _ _ _ _ _); [lia|discriminate|discriminate|reflexivity]|]). apply Forall_nil.
    - split; [|exact Logic.I]. split; [lia|]. split; [discriminate|]. split; [|exact Logic.I]. cbn [cols_of C122_left C122_right]. repeat (apply Forall_cons; [refine (C _ _ _ _ _ _ _); [lia|discriminate|discriminate|reflexivity]|]). apply Forall_nil. }
  split; [apply time_i64|]. split; [apply time_ll|]. split.
  { split; [|split; [now left|exact S4]]. unfold arg_ok, C122_time1. cbn [a_len a_start a_mem a_step length]. split; [lia|]. split; [lia|intros; lia]. }
  split.
  { split; [|split; [now left|exact S3]]. unfold arg_ok, C122_time2. cbn [a_len a_start a_mem a_step length]. split; [lia|]. split; [lia|intros; lia]. }
  vm_compute. auto.
Qed.

(** Three columns in a tuple are refused, unless the third is of booleans. *)
Theorem C122_three_refuted : forall crc_bytes d n cols size a k2 v1 v2 forward exact, 0 <= n < 68719476731 -> Forall (column_ok n) cols -> nth_error cols 2 = Some (KArray size a) ->
  a_dtype a <> 0 -> keys_fit k2 -> MultiKeyAlign32Call crc_bytes d (KeysTuple cols) k2 v1 v2 forward exact = Error.
Proof.
  intros crc_bytes d n cols size a k2 v1 v2 forward exact HN HC E N (m & K). unfold MultiKeyAlign32Call. rewrite (third_refused n cols size a HN HC E N).
  destruct (keys_prepared _ _ K) as (c & ->). destruct v1, v2; reflexivity.
Qed.
Print Assumptions C122_three_refuted.
(** The times 10 and 30 of every second element of an array: 10 and 20 are read, and the last row of the second table at 25 is not found. *)
Theorem C122_gaps_refuted : exists a, arg_ok 2 a /\ arg_vals 0 a = [10; 30] /\
  MultiKeyAlign32Call (fun l => nth 0 l 0) 77 (KeysList [bytes 2 1 [[7]; [7]]]) (KeysList [bytes 2 1 [[7]; [7]]]) (TInt 8 a) (times 7 8 [5; 25]) false true = Done (Some (5, [0; 0])) /\
  MultiKeyAlign32Call (fun l => nth 0 l 0) 77 (KeysList [bytes 2 1 [[7]; [7]]]) (KeysList [bytes 2 1 [[7]; [7]]]) (times 7 8 [10; 30]) (times 7 8 [5; 25]) false true = Done (Some (5, [0; 1])).
Proof.
  exists (mkArg 7 [10; 20; 30] 0 2 2). split; [unfold arg_ok; cbn [a_len a_start a_mem a_step length]; split; [lia|]; split; [lia|intros; lia]|]. vm_compute. auto.
Qed.
Print Assumptions C122_gaps_refuted.
(** Dates (type 21) are refused for the first table, but taken as 64-bit integers for the second. *)
Theorem C122_dates_refuted :
  let one := KeysList [bytes 2 1 [[7]]] in
  MultiKeyAlign32Call (fun l => nth 0 l 0) 77 one one (times 21 8 [5]) (times 7 8 [5]) false true = Error /\
  MultiKeyAlign32Call (fun l => nth 0 l 0) 77 one one (times 21 8 [5]) (times 21 8 [5]) false true = Error /\
  MultiKeyAlign32Call (fun l => nth 0 l 0) 77 one one (times 7 8 [5]) (times 21 8 [5]) false true = Done (Some (5, [0])).
Proof. vm_compute. auto. Qed.
Print Assumptions C122_dates_refuted.
(** Columns of one and two bytes against columns of two and one: the rows match. *)
Theorem C122_columns_refuted :
  MultiKeyAlign32Call (fun l => nth 0 l 0) 77 (KeysList [bytes 2 1 [[7]]; bytes 18 2 [[8; 9]]]) (KeysList [bytes 18 2 [[7; 8]]; bytes 2 1 [[9]]])
    (times 7 8 [5]) (times 7 8 [5]) false true = Done (Some (5, [0])).
Proof. vm_compute. reflexivity. Qed.
Print Assumptions C122_columns_refuted.

(** ** C123.  Missing: tuples of three or more columns ([C123_three_refuted]), tables without rows ([C123_empty_refuted]), hints that are too small. *)
Theorem C123_member_partial : forall crc_bytes ord threaded n1 n2 k1 k2 hint, fair ord -> tables_ok n1 n2 k1 k2 -> 0 < n1 -> 0 < n2 ->
  hint_fine (match hint with Some h => h | None => 0 end) (table n2 (cols_of k2)) ->
  exists r dtype bad, MultiKeyIsMember32Call crc_bytes ord threaded k1 k2 hint = Done (Some (map fst r, dtype, map snd r)) /\ found_type n1 n2 dtype bad /\
    member_spec eq bad (table n2 (cols_of k2)) (table n1 (cols_of k1)) r.
Proof. intros crc_bytes ord threaded n1 n2 k1 k2 hint F. exact (member_call crc_bytes ord threaded F n1 n2 k1 k2 hint). Qed.
Print Assumptions C123_member_partial.
Theorem C123_refused : forall crc_bytes ord threaded k1 k2 hint, 0 <= (match hint with Some h => h | None => 0 end) < 2 ^ 63 ->
  keys_fit k1 \/ keys_bad k1 -> keys_fit k2 \/ keys_bad k2 -> keys_bad k1 \/ keys_bad k2 -> MultiKeyIsMember32Call crc_bytes ord threaded k1 k2 hint = Error.
Proof. exact member_refused. Qed.
Print Assumptions C123_refused.
Theorem C123_sizes_refused : forall crc_bytes ord threaded n1 n2 k1 k2 hint, 0 <= (match hint with Some h => h | None => 0 end) < 2 ^ 63 -> keys_ok n1 k1 -> keys_ok n2 k2 ->
  total_size (cols_of k1) <> total_size (cols_of k2) -> MultiKeyIsMember32Call crc_bytes ord threaded k1 k2 hint = Error.
Proof. intros crc_bytes ord threaded n1 n2 k1 k2 hint HR K1 K2 C. apply (member_unlike crc_bytes ord threaded n1 n2); auto. Qed.
Print Assumptions C123_sizes_refused.
(** A table without rows is refused, whatever the other one is. *)
Theorem C123_empty_refuted : forall crc_bytes ord threaded n1 n2 k1 k2, tables_ok n1 n2 k1 k2 -> n1 = 0 \/ n2 = 0 ->
  MultiKeyIsMember32Call crc_bytes ord threaded k1 k2 None = Error.
Proof. intros crc_bytes ord threaded n1 n2 k1 k2 (K1 & K2 & _) C. apply (member_unlike crc_bytes ord threaded n1 n2); [|exact K1|exact K2|]; [split; [apply Z.le_refl|reflexivity]|]. destruct C; auto. Qed.
Print Assumptions C123_empty_refuted.
Theorem C123_three_refuted : forall crc_bytes ord threaded n cols size a k2, 0 <= n < 68719476731 -> Forall (column_ok n) cols -> nth_error cols 2 = Some (KArray size a) ->
  a_dtype a <> 0 -> keys_fit k2 -> MultiKeyIsMember32Call crc_bytes ord threaded (KeysTuple cols) k2 None = Error.
Proof.
  intros crc_bytes ord threaded n cols size a k2 HN HC E N (m & K). unfold MultiKeyIsMember32Call. rewrite (third_refused n cols size a HN HC E N).
  destruct (keys_prepared _ _ K) as (c & ->). reflexivity.
Qed.
Print Assumptions C123_three_refuted.
Example C123_example : tables_ok 4 3 C122_left C122_right /\ fair in_order /\
  MultiKeyIsMember32Call (fun l => nth 0 l 0) in_order true C122_left C122_right None = Done (Some ([true; true; true; false], 1, [0; 1; 0; -128])) /\
  MultiKeyIsMember32Call (fun l => nth 0 l 0) in_order false C122_left C122_right (Some 2) = Done (Some ([true; true; true; false], 1, [0; 1; 0; -128])) /\
  MultiKeyIsMember32Call (fun l => nth 0 l 0) in_order true C122_left (KeysTuple [bytes 2 1 [[7]; [3]; [7]]]) None = Error.
Proof. split; [exact (proj1 C122_example)|]. split; [intros T l; apply Permutation_refl|]. vm_compute. auto. Qed.
