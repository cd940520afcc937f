(** Properties C110-C112: the MultiKey functions from their arguments to their results. *)
From Verif Require Import Base Mem AllModel EaModel EaSpec.
From Verif Require Import LxSpec HashModel HashSpec HashGroup MkModel MkSpec MkProofs Mk2Proofs Mk3Proofs.
Local Open Scope Z_scope.

Ltac arr := unfold arg_ok; cbn [a_len a_start a_mem a_step length map seq]; split; [lia|]; split; [lia|intros; lia].

(** ** C110.  MultiKeyGroupBy32.  Missing: filters with gaps ([C110_filter_refuted]), an empty list of columns ([C110_no_columns_refuted]), hash mode 1
    for rows of one or two bytes ([C110_narrow_refuted]), hints that are too small together with cutoffs ([C110_hint_refuted]). *)
Theorem C110_groupby_partial : forall crc crc_bytes ord n cols filter hint mode cutoffs,
  call_ok n cols filter -> hint_fine hint (table n cols) -> mode_fine mode cols -> not_given cutoffs ->
  exists idx first,
    MultiKeyGroupBy32 crc crc_bytes ord cols hint filter mode cutoffs = Done (if n <=? 2100000000 then 5 else 7, idx, Whole first, Z.of_nat (length first)) /\
    grouped (keyed n cols filter) idx first.
Proof.
  intros crc crc_bytes ord n cols filter hint mode cutoffs OK HT HM NC.
  destruct (whole_call n cols filter OK crc crc_bytes ord hint mode (hint_fine_range n cols hint HT) HM cutoffs NC _ eq_refl) as [Q | (_ & Q)]; [exact Q|contradiction].
Qed.
Print Assumptions C110_groupby_partial.

(** A hint that is too small is an error at worst. *)
Theorem C110_hint_partial : forall crc crc_bytes ord n cols filter hint mode cutoffs,
  call_ok n cols filter -> 0 <= hint < 68719476731 -> mode_fine mode cols -> not_given cutoffs -> forall r,
  MultiKeyGroupBy32 crc crc_bytes ord cols hint filter mode cutoffs = r ->
  (exists idx first, r = Done (if n <=? 2100000000 then 5 else 7, idx, Whole first, Z.of_nat (length first)) /\ grouped (keyed n cols filter) idx first) \/
  (r = Error /\ ~ hint_fine hint (table n cols)).
Proof. intros crc crc_bytes ord n cols filter hint mode cutoffs OK HH HM NC. exact (whole_call n cols filter OK crc crc_bytes ord hint mode HH HM cutoffs NC). Qed.
Print Assumptions C110_hint_partial.

Theorem C110_cutoffs_partial : forall crc crc_bytes ord n cols filter hint mode a,
  call_ok n cols filter -> hint_fine hint (table n cols) -> mode_fine mode cols -> fair ord -> cutoffs_given n a ->
  exists idx first counts,
    MultiKeyGroupBy32 crc crc_bytes ord cols hint filter mode (PArray a) = Done (if n <=? 2100000000 then 5 else 7, idx, Parts first counts, Z.of_nat (length first)) /\
    grouped_parts (arg_vals 0 a) (keyed n cols filter) idx first counts.
Proof. intros crc crc_bytes ord n cols filter hint mode a OK HT HM HF HC. exact (parts_call n cols filter OK crc crc_bytes ord hint mode (hint_fine_range n cols hint HT) HM a HF HC HT). Qed.
Print Assumptions C110_cutoffs_partial.

Theorem C110_refused : forall crc crc_bytes ord d n cols filter hint mode cutoffs, 0 <= hint < 68719476731 ->
  columns_bad cols \/ (0 <= n < 68719476731 /\ cols <> [] /\ Forall (column_ok n) cols /\ filter_bad n filter) ->
  MultiKeyGroupBy32 crc crc_bytes ord cols hint filter mode cutoffs = Error /\ MultiKeyGroupBy32Super crc_bytes cols hint filter mode = Error /\
  MultiKeyUnique32 crc_bytes cols hint filter = Error /\ MultiKeyHashCall crc_bytes d cols hint filter = Error.
Proof.
  intros crc crc_bytes ord d n cols filter hint mode cutoffs HH B. apply prepare_refused; [exact (hint_fine_ok hint HH)|].
  destruct B as [B | (HN & NE & HC & B)]; [exact (columns_refused cols filter B)|exact (filter_refused n cols filter HN NE HC B)].
Qed.
Print Assumptions C110_refused.

Theorem C110_cutoffs_refused : forall n cols filter crc crc_bytes ord hint mode a, call_ok n cols filter -> 0 <= hint < 68719476731 ->
  (~ (a_dtype a = 7 \/ a_dtype a = 9) \/ (0 < a_len a /\ arg_ok (a_len a) a /\ gapless a /\ nth_error (arg_vals 0 a) (Z.to_nat (a_len a - 1)) <> Some n)) ->
  MultiKeyGroupBy32 crc crc_bytes ord cols hint filter mode (PArray a) = Error.
Proof. exact cutoffs_refused. Qed.
Print Assumptions C110_cutoffs_refused.

(** Two rows that are kept have the same group number exactly if they agree in every column. *)
Theorem C110_same_group : forall n cols filter idx first i j, grouped (keyed n cols filter) idx first ->
  (i < Z.to_nat n)%nat -> (j < Z.to_nat n)%nat -> keep_at filter i = true -> keep_at filter j = true ->
  (nth_error idx i = nth_error idx j <-> Forall (fun c => nth i (items c) [] = nth j (items c) []) cols).
Proof.
  intros n cols filter idx first i j G Hi Hj Ki Kj.
  assert (W : forall k, (k < Z.to_nat n)%nat -> keep_at filter k = true -> kept (keyed n cols filter) k (row_at cols k)).
  { intros k Hk Kk. unfold kept, keyed. rewrite nth_error_map, nth_error_seq. rewrite (proj2 (Nat.ltb_lt _ _) Hk). cbn [option_map Nat.add]. now rewrite Kk. }
  rewrite (grouped_iff _ _ _ i j _ _ G (W i Hi Ki) (W j Hj Kj)). unfold row_at. clear. induction cols as [|c l IH]; cbn [map]; [split; [constructor|reflexivity]|].
  split.
  - intros [= E R]. constructor; [exact E|now apply IH].
  - intros F. inversion F as [|? ? E R]; subst. f_equal; [exact E|now apply IH].
Qed.
Print Assumptions C110_same_group.

Definition C110_cols : list key_column := [bytes 3 2 [[1; 0]; [2; 0]; [1; 0]; [1; 0]; [2; 0]]; KArray 3 (mkArg 18 [[97; 0; 0]; []; [98; 0; 0]; []; [97; 0; 0]; []; [98; 0; 0]; []; [98; 0; 0]] 0 2 5)].
Example C110_example : MultiKeyGroupBy32 (fun x => x) (fold_right Z.add 0) in_order C110_cols 0 (mask [true; true; true; true; false]) (Some 1) PNone = Done (5, [1; 2; 1; 3; 0], Whole [0; 1; 3], 3).
Proof. vm_compute. reflexivity. Qed.
Example C110_parts_example : MultiKeyGroupBy32 (fun x => x) (fold_right Z.add 0) in_order C110_cols 0 PNone (Some 1) (PArray (mkArg 7 [2; 5] 0 1 2)) = Done (5, [1; 2; 1; 2; 3], Parts [0; 1; 0; 1; 2] [2; 5], 5).
Proof. vm_compute. reflexivity. Qed.
Example C110_guard : call_ok 5 C110_cols (mask [true; true; true; true; false]) /\ hint_fine 0 (table 5 C110_cols) /\ mode_fine (Some 1) C110_cols /\ cutoffs_given 5 (mkArg 7 [2; 5] 0 1 2).
Proof.
  split; [|split; [now left|]; split; [right; right; cbn; split; [reflexivity|split; discriminate]|]].
  - split; [lia|]. split; [discriminate|]. split.
    + constructor; [|constructor; [|constructor]].
      * unfold column_ok, bytes. split; [cbn; lia|]. split; [discriminate|]. split; [discriminate|]. split; [arr|]. split; [now right|]. repeat constructor; lia.
      * unfold column_ok. split; [cbn; lia|]. split; [discriminate|]. split; [discriminate|]. split; [arr|]. split; [left; cbn; lia|]. repeat constructor; lia.
    + unfold mask_given, mask. split; [reflexivity|]. split; [arr|now left].
  - split; [now left|]. split; [cbn; lia|]. split; [arr|]. split; [now left|]. change (SortSpec.cutoffs_ok 0 5 [2; 5]). cbn [SortSpec.cutoffs_ok]. lia.
Qed.
Example C110_refused_guard : columns_bad [bytes 1 1 [[1]; [2]]; bytes 1 1 [[1]]] /\ filter_bad 5 (mask [true]).
Proof.
  split; [|right; discriminate]. split.
  - constructor; [left; exists 2|constructor; [left; exists 1|constructor]]; (split; [lia|]); unfold column_ok, bytes; (split; [cbn; lia|]); (split; [discriminate|]); (split; [discriminate|]);
      (split; [arr|]); (split; [now right|]); repeat constructor; lia.
  - right. eexists. eexists. split; [now left|]. split; [right; now left|]. cbn. discriminate.
Qed.

(** The filter [True, True], every other element of an array, drops the second row. *)
Theorem C110_filter_refuted : exists n cols a idx first, 0 <= n /\ cols <> [] /\ Forall (column_ok n) cols /\ a_dtype a = 0 /\ arg_ok n a /\
  MultiKeyGroupBy32 (fun x => x) (fold_right Z.add 0) in_order cols 0 (PArray a) (Some 1) PNone = Done (5, idx, Whole first, 1) /\ ~ grouped (keyed n cols (PArray a)) idx first.
Proof.
  exists 2, [bytes 5 4 [[1; 0; 0; 0]; [2; 0; 0; 0]]], (mkArg 0 [true; false; true] 0 2 2), [1; 0], [0]. split; [lia|]. split; [discriminate|]. split.
  - constructor; [|constructor]. unfold column_ok, bytes. split; [cbn; lia|]. split; [discriminate|]. split; [discriminate|]. split; [arr|]. split; [now right|]. repeat constructor; lia.
  - split; [reflexivity|]. split; [arr|]. split; [vm_compute; reflexivity|]. intros [_ _ G _ _]. destruct (G 1%nat [[2; 0; 0; 0]] eq_refl) as (g & r & _ & _ & _ & E).
    cbn in E. injection E. lia.
Qed.
Print Assumptions C110_filter_refuted.

Theorem C110_no_columns_refuted : forall crc crc_bytes ord, MultiKeyGroupBy32 crc crc_bytes ord [] 0 PNone None PNone = Undefined.
Proof. reflexivity. Qed.
Print Assumptions C110_no_columns_refuted.

Theorem C110_narrow_refuted : exists cols idx first, call_ok 2 cols PNone /\
  MultiKeyGroupBy32 (fun x => x) (fold_right Z.add 0) in_order cols 0 PNone (Some 1) PNone = Done (5, idx, Whole first, 1) /\ ~ grouped (keyed 2 cols PNone) idx first.
Proof.
  exists [bytes 1 1 [[0]; [1]]], [1; 1], [0]. split.
  - split; [lia|]. split; [discriminate|]. split; [|exact Logic.I]. constructor; [|constructor]. unfold column_ok, bytes. split; [cbn; lia|]. split; [discriminate|]. split; [discriminate|]. split; [arr|]. split; [now right|]. repeat constructor; lia.
  - split; [vm_compute; reflexivity|]. intros G. pose proof (proj1 (C110_same_group 2 _ PNone _ _ 0 1 G ltac:(cbn; lia) ltac:(cbn; lia) eq_refl eq_refl) eq_refl) as F. inversion F. discriminate.
Qed.
Print Assumptions C110_narrow_refuted.

(** Fifty-four rows and the hint 1: an error without cutoffs; with cutoffs a thread ends with an exception. *)
Definition C110_many : list key_column := [bytes 5 4 (map (fun i => [Z.of_nat i; 0; 0; 0]) (seq 0 54))].
Theorem C110_hint_refuted : exists a, call_ok 54 C110_many PNone /\ cutoffs_given 54 a /\
  MultiKeyGroupBy32 (fun x => x) (fold_right Z.add 0) in_order C110_many 1 PNone (Some 1) PNone = Error /\
  MultiKeyGroupBy32 (fun x => x) (fold_right Z.add 0) in_order C110_many 1 PNone (Some 1) (PArray a) = Undefined.
Proof.
  exists (mkArg 7 [54] 0 1 1). split; [|split; [|split; vm_compute; reflexivity]].
  - split; [lia|]. split; [discriminate|]. split; [|exact Logic.I]. constructor; [|constructor]. unfold column_ok, bytes. split; [cbn; lia|]. split; [discriminate|]. split; [discriminate|].
    split; [arr|]. split; [now right|]. apply Forall_forall. intros x Hx. unfold arg_vals in Hx. apply in_map_iff in Hx as (i & <- & Hi). apply in_seq in Hi.
    cbn [a_start a_step a_mem a_len] in *. rewrite map_length, seq_length in Hi. replace (Z.to_nat (0 + Z.of_nat i * 1)) with i by lia.
    rewrite (nth_indep _ [] ((fun i => [Z.of_nat i; 0; 0; 0]) 0%nat)) by (rewrite map_length, seq_length; lia). rewrite (map_nth (fun i => [Z.of_nat i; 0; 0; 0])), seq_nth by lia.
    split; [reflexivity|]. repeat constructor; lia.
  - split; [now left|]. split; [cbn; lia|]. split; [arr|]. split; [now left|]. change (SortSpec.cutoffs_ok 0 54 [54]). cbn [SortSpec.cutoffs_ok]. lia.
Qed.
Print Assumptions C110_hint_refuted.

(** ** C111.  MultiKeyUnique32 and MultiKeyGroupBy32Super.  Missing: as for C110; a hint that is too small gives None ([C111_unique_partial] says when) or
    is undefined ([C111_hint_refuted]). *)
Theorem C111_unique_partial : forall crc_bytes n cols filter hint, call_ok n cols filter -> 0 <= hint < 68719476731 ->
  forall r, MultiKeyUnique32 crc_bytes cols hint filter = r ->
  (exists idx first count, r = Done (Some (if n <? 2100000000 then 5 else 7, first, count)) /\ grouped (keyed n cols filter) idx first /\ sizes idx first count) \/
  (r = Done None /\ ~ hint_fine hint (table n cols)).
Proof. intros crc_bytes n cols filter hint OK HH. exact (unique_call n cols filter OK crc_bytes hint HH). Qed.
Print Assumptions C111_unique_partial.

Theorem C111_super_partial : forall crc_bytes n cols filter hint mode, call_ok n cols filter -> n <= 2100000000 -> hint_fine hint (table n cols) ->
  mode = None \/ mode = Some 1 \/ mode = Some 2 ->
  exists idx next first count, MultiKeyGroupBy32Super crc_bytes cols hint filter mode = Done (idx, next, first, count) /\
    grouped (keyed n cols filter) idx first /\ HashSpec.column idx (next_row idx) next /\ sizes idx first count.
Proof. intros crc_bytes n cols filter hint mode OK. exact (super_call n cols filter OK crc_bytes hint mode). Qed.
Print Assumptions C111_super_partial.

Example C111_unique_example : MultiKeyUnique32 (fold_right Z.add 0) C110_cols 0 (mask [true; true; true; true; false]) = Done (Some (5, [0; 1; 3], [2; 1; 1])).
Proof. vm_compute. reflexivity. Qed.
Example C111_super_example : MultiKeyGroupBy32Super (fold_right Z.add 0) C110_cols 0 (mask [true; true; true; true; false]) (Some 1) =
  Done ([1; 2; 1; 3; 0], [2; GB_INVALID; GB_INVALID; GB_INVALID; GB_INVALID], [0; 1; 3], [2; 1; 1]).
Proof. vm_compute. reflexivity. Qed.

Theorem C111_hint_refuted : call_ok 54 C110_many PNone /\ MultiKeyGroupBy32Super (fold_right Z.add 0) C110_many 1 PNone (Some 1) = Undefined.
Proof. destruct C110_hint_refuted as (_ & OK & _). split; [exact OK|]. vm_compute. reflexivity. Qed.
Print Assumptions C111_hint_refuted.

(** ** C112.  MultiKeyHash.  Missing: the filter, which is checked and then ignored ([C112_filter_refuted]). *)
Theorem C112_hash_partial : forall crc_bytes d n cols filter hint, call_ok n cols filter -> n < 2100000000 -> hint_fine hint (table n cols) ->
  exists idx run bkt prev next first lst, MultiKeyHashCall crc_bytes d cols hint filter = Done (idx, run, bkt, prev, next, first, lst) /\
    (exists f, grouped (keyed n cols PNone) idx f) /\ HashSpec.column idx (running idx) run /\ HashSpec.column idx (group_size idx) bkt /\
    HashSpec.column idx (prev_row idx) prev /\ HashSpec.column idx (next_row idx) next /\ HashSpec.column idx (group_first idx) first /\ HashSpec.column idx (group_last idx) lst.
Proof. intros crc_bytes d n cols filter hint OK. exact (hash_call n cols filter OK crc_bytes d hint). Qed.
Print Assumptions C112_hash_partial.

Example C112_example : MultiKeyHashCall (fold_right Z.add 0) 77 C110_cols 0 PNone =
  Done ([1; 2; 1; 3; 2], [1; 1; 2; 1; 2], [2; 2; 2; 1; 2], [GB_INVALID; GB_INVALID; 0; GB_INVALID; 1], [2; 4; GB_INVALID; GB_INVALID; GB_INVALID], [0; 1; 0; 3; 1], [2; 4; 2; 3; 4]).
Proof. vm_compute. reflexivity. Qed.

Theorem C112_filter_refuted : forall crc_bytes d n cols a hint idx run bkt prev next first lst i, call_ok n cols (PArray a) -> n < 2100000000 -> hint_fine hint (table n cols) ->
  MultiKeyHashCall crc_bytes d cols hint (PArray a) = Done (idx, run, bkt, prev, next, first, lst) -> (i < Z.to_nat n)%nat -> nth i (arg_vals false a) false = false ->
  ~ exists f, grouped (keyed n cols (PArray a)) idx f.
Proof.
  intros crc_bytes d n cols a hint idx run bkt prev next first lst i OK HN HT E Hi Hf (f & [_ G _ _ _]).
  destruct (C112_hash_partial crc_bytes d n cols (PArray a) hint OK HN HT) as (idx' & run' & bkt' & prev' & next' & first' & lst' & E' & (f' & [_ _ G' _ _]) & _).
  rewrite E in E'. injection E' as <- <- <- <- <- <- <-.
  assert (N : nth_error (keyed n cols (PArray a)) i = Some (row_at cols i, false)).
  { unfold keyed. rewrite nth_error_map, nth_error_seq, (proj2 (Nat.ltb_lt _ _) Hi). cbn [option_map Nat.add keep_at]. now rewrite Hf. }
  assert (N' : kept (keyed n cols PNone) i (row_at cols i)).
  { unfold kept, keyed. rewrite nth_error_map, nth_error_seq, (proj2 (Nat.ltb_lt _ _) Hi). reflexivity. }
  destruct (G' i _ N') as (g & r & _ & _ & _ & X). rewrite (G i _ N) in X. injection X. lia.
Qed.
Print Assumptions C112_filter_refuted.
