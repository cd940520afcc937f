(** Properties C124 and C125: BinCount, GroupFromBinCount and MakeiNext from their arguments to their results. *)
From Verif Require Import Base Mem Inter AllModel EaModel EaSpec.
From Verif Require Import GroupSpec BgModel BgSpec BgProofs.
From Verif Require GroupModel GroupProps Ea2Proofs.
Local Open Scope Z_scope.

(** ** C124.  Missing: keys of other types ([C124_types_refuted]) and with gaps ([C124_gaps_refuted]), counts that are not those of the keys
    ([C124_counts_refuted]). *)
Theorem C124_counts_partial : forall ord threading futex junk n a u pack,
  0 < futex -> 0 < n -> 0 < u < 2 ^ 63 -> keys_given n a -> pack <> Boolean true ->
  exists d ncount, BinCountCall ord threading futex junk (PArray a) u pack = Done (Counts d ncount) /\ wide_enough n d /\ histogram u (arg_vals 0 a) ncount.
Proof. exact counts_call. Qed.
Print Assumptions C124_counts_partial.
Theorem C124_packed_partial : forall ord threading futex junk n a u, fair ord -> new_array junk ->
  0 < futex -> 0 < n -> 0 < u < 2 ^ 63 -> keys_given n a ->
  exists d ncount igroup ifirst, BinCountCall ord threading futex junk (PArray a) u (Boolean true) = Done (Packed d ncount igroup ifirst) /\ wide_enough n d /\
    histogram u (arg_vals 0 a) ncount /\ packed_rows u (arg_vals 0 a) ncount igroup ifirst /\ (all_in_range u (arg_vals 0 a) -> all_rows (arg_vals 0 a) igroup).
Proof. exact packed_call. Qed.
Print Assumptions C124_packed_partial.
Theorem C124_groups_partial : forall threading futex junk mix n u a c, (forall ps, interleave ps (mix ps)) -> new_array junk -> 0 < futex -> 0 <= n -> 0 <= u ->
  keys_given n a -> arg_ok u c -> gapless c -> wide_enough n (a_dtype c) -> histogram u (arg_vals 0 a) (arg_vals 0 c) ->
  exists igroup ifirst, GroupFromBinCountCall mix threading futex junk (PArray a) (PArray c) = Done (a_dtype c, igroup, ifirst) /\
    packed_rows u (arg_vals 0 a) (arg_vals 0 c) igroup ifirst /\ (all_in_range u (arg_vals 0 a) -> all_rows (arg_vals 0 a) igroup).
Proof. exact group_call. Qed.
Print Assumptions C124_groups_partial.
(** With keys in range both ways to the packed rows give the same arrays, whatever the number and the order of the threads. *)
Theorem C124_two_steps_partial : forall ord threading futex junk mix n a u ncount d, fair ord -> (forall ps, interleave ps (mix ps)) -> new_array junk ->
  0 < futex -> 0 < n -> 0 < u < 2 ^ 63 -> keys_given n a -> all_in_range u (arg_vals 0 a) ->
  BinCountCall ord threading futex junk (PArray a) u NotGiven = Done (Counts d ncount) ->
  exists igroup ifirst, GroupFromBinCountCall mix threading futex junk (PArray a) (PArray (fresh d ncount)) = Done (d, igroup, ifirst) /\
    BinCountCall ord threading futex junk (PArray a) u (Boolean true) = Done (Packed d ncount igroup ifirst).
Proof. exact two_steps_call. Qed.
Print Assumptions C124_two_steps_partial.
Theorem C124_refused : forall ord threading futex junk keys u pack,
  (forall a, keys <> PArray a) \/ ~ (- 2 ^ 63 <= u < 2 ^ 63) \/ u <= 0 \/ (exists a, keys = PArray a /\ a_len a = 0) ->
  BinCountCall ord threading futex junk keys u pack = Error.
Proof. exact bincount_refused. Qed.
Print Assumptions C124_refused.
Theorem C124_types_refused : forall threading futex junk mix keys count,
  (forall a, keys <> PArray a) \/ (forall c, count <> PArray c) \/ (exists a c, keys = PArray a /\ count = PArray c /\ ~ wide_enough (a_len a) (a_dtype c)) ->
  GroupFromBinCountCall mix threading futex junk keys count = Error.
Proof. exact group_refused. Qed.
Print Assumptions C124_types_refused.

(** Six keys of int16 in three bins. *)
Definition six_keys : arg Z := mkArg 3 [7; 1; 0; 2; 0; 1; 1; 7] 1 1 6.
Definition sevens (n : nat) : list Z := repeat 7 n.
Example C124_example :
  keys_given 6 six_keys /\ all_in_range 3 (arg_vals 0 six_keys) /\ new_array sevens /\ fair in_order /\ (forall ps : list (list GroupModel.gop), interleave ps (concat ps)) /\
  BinCountCall in_order false 3 sevens (PArray six_keys) 3 NotGiven = Done (Counts 5 [2; 3; 1]) /\
  BinCountCall (fun B => @rev B) true 3 sevens (PArray six_keys) 3 (Boolean true) = Done (Packed 5 [2; 3; 1] [1; 3; 0; 4; 5; 2] [0; 2; 5]) /\
  GroupFromBinCountCall (@concat GroupModel.gop) false 3 sevens (PArray six_keys) (PArray (fresh 5 [2; 3; 1])) = Done (5, [1; 3; 0; 4; 5; 2], [0; 2; 5]).
Proof.
  split.
  { split; [exists 16; constructor|]. split; [|left; reflexivity]. unfold arg_ok, six_keys. cbn [a_len a_start a_mem a_step length]. split; [lia|]. split; [lia|intros; lia]. }
  split; [intros k H; vm_compute in H; lia|]. split; [intros n; apply repeat_length|]. split; [intros T l; apply Permutation_refl|]. split; [intros ps; apply interleave_concat|].
  vm_compute. repeat split.
Qed.

(** Unsigned keys: a function that does not exist is called. *)
Theorem C124_types_refuted : exists a, arg_ok 2 a /\ gapless a /\ all_in_range 2 (arg_vals 0 a) /\ forall ord threading futex junk mix pack,
  BinCountCall ord threading futex junk (PArray a) 2 pack = Undefined /\
  GroupFromBinCountCall mix threading futex junk (PArray a) (PArray (fresh 5 [1; 1])) = Undefined.
Proof.
  exists (mkArg 2 [0; 1] 0 1 2). split; [unfold arg_ok; cbn [a_len a_start a_mem a_step length]; split; [lia|]; split; [lia|intros; lia]|].
  split; [left; reflexivity|]. split; [intros k H; vm_compute in H; lia|]. intros. split; reflexivity.
Qed.
Print Assumptions C124_types_refuted.
(** Every other element of an array: the elements between them are counted. *)
Theorem C124_gaps_refuted : exists a, arg_ok 2 a /\ signed_type (a_dtype a) 32 /\
  BinCountCall in_order false 3 sevens (PArray a) 2 NotGiven = Done (Counts 5 [1; 1]) /\ ~ histogram 2 (arg_vals 0 a) [1; 1].
Proof.
  exists (mkArg 5 [0; 1; 0; 1] 0 2 2). split; [unfold arg_ok; cbn [a_len a_start a_mem a_step length]; split; [lia|]; split; [lia|intros; lia]|].
  split; [constructor|]. split; [reflexivity|]. intros (_ & H). specialize (H 0 ltac:(lia)). discriminate H.
Qed.
Print Assumptions C124_gaps_refuted.
(** Counts that are not those of the keys: memory beyond the result is written. *)
Theorem C124_counts_refuted : exists a c, keys_given 2 a /\ arg_ok 2 c /\ gapless c /\ wide_enough 2 (a_dtype c) /\ all_in_range 2 (arg_vals 0 a) /\
  GroupFromBinCountCall (@concat GroupModel.gop) false 3 sevens (PArray a) (PArray c) = Undefined.
Proof.
  exists (fresh 5 [0; 1]), (fresh 5 [9; 1]). destruct (fresh_right 5 [0; 1]) as (A & B & C), (fresh_right 5 [9; 1]) as (D & E & _).
  split; [split; [exists 32; constructor|split; assumption]|]. split; [exact D|]. split; [exact E|]. split; [left; split; [lia|reflexivity]|].
  split; [rewrite C; intros k H; vm_compute in H; lia|]. reflexivity.
Qed.
Print Assumptions C124_counts_refuted.

(** ** C125.  Missing: keys with gaps ([C125_gaps_refuted]) and out of range ([C125_outside_refuted]), more rows than the type of the keys can number
    ([C125_narrow_refuted]). *)
Theorem C125_rows_partial : forall junk n a bits u mode, new_array junk -> 0 <= n -> signed_type (a_dtype a) bits -> arg_ok n a -> gapless a ->
  0 <= u < 2 ^ 63 - 1 -> - 2 ^ 63 <= mode < 2 ^ 63 -> all_in_range (u + 1) (arg_vals 0 a) -> n <= 2 ^ (bits - 1) ->
  exists res, MakeiNextCall junk (PArray a) u mode = Done (a_dtype a, res) /\ length res = Z.to_nat n /\
    forall i, (i < Z.to_nat n)%nat -> exists r, nth_error res i = Some r /\
      if mode =? 0 then next_same (arg_vals 0 a) (- 2 ^ (bits - 1)) i r else prev_same (arg_vals 0 a) (- 2 ^ (bits - 1)) i r.
Proof. exact next_call. Qed.
Print Assumptions C125_rows_partial.
Theorem C125_refused : forall junk keys u mode,
  (forall a, keys <> PArray a) \/ ~ (- 2 ^ 63 <= u < 2 ^ 63) \/ ~ (- 2 ^ 63 <= mode < 2 ^ 63) \/
  (exists a, keys = PArray a /\ 0 <= a_dtype a /\ forall bits, ~ signed_type (a_dtype a) bits) ->
  MakeiNextCall junk keys u mode = Error.
Proof. exact next_refused. Qed.
Print Assumptions C125_refused.
Example C125_example :
  signed_type (a_dtype six_keys) 16 /\ arg_ok 6 six_keys /\ gapless six_keys /\ all_in_range (2 + 1) (arg_vals 0 six_keys) /\
  MakeiNextCall sevens (PArray six_keys) 2 0 = Done (3, [4; 3; -32768; -32768; 5; -32768]) /\
  MakeiNextCall sevens (PArray six_keys) 2 1 = Done (3, [-32768; -32768; -32768; 1; 0; 4]).
Proof.
  split; [constructor|]. destruct C124_example as ((_ & A & B) & C & _). split; [exact A|]. split; [exact B|]. split; [exact C|]. vm_compute. split; reflexivity.
Qed.
(** A key out of range: the row holds what the memory held. *)
Theorem C125_outside_refuted : forall x, exists junk a, new_array junk /\ arg_ok 1 a /\ gapless a /\ signed_type (a_dtype a) 32 /\
  MakeiNextCall junk (PArray a) 1 0 = Done (5, [x]).
Proof.
  intros x. exists (repeat x), (fresh 5 [-1]). destruct (fresh_right 5 [-1]) as (A & B & _). split; [intros n; apply repeat_length|]. split; [exact A|]. split; [exact B|].
  split; [constructor|reflexivity].
Qed.
Print Assumptions C125_outside_refuted.
Theorem C125_gaps_refuted : exists a r, arg_ok 2 a /\ signed_type (a_dtype a) 32 /\ all_in_range 2 (arg_vals 0 a) /\
  MakeiNextCall sevens (PArray a) 1 0 = Done (5, r :: [- 2 ^ 31]) /\ ~ next_same (arg_vals 0 a) (- 2 ^ 31) 0 r.
Proof.
  exists (mkArg 5 [0; 1; 0; 1] 0 2 2), (- 2 ^ 31). split; [unfold arg_ok; cbn [a_len a_start a_mem a_step length]; split; [lia|]; split; [lia|intros; lia]|].
  split; [constructor|]. split; [intros k H; vm_compute in H; lia|]. split; [reflexivity|]. intros [(j & E & _)|(_ & H)]; [lia|]. apply (H 1%nat); [vm_compute; lia|reflexivity].
Qed.
Print Assumptions C125_gaps_refuted.
(** 129 rows of int8: the number of the last row is stored as the mark for no row. *)
Theorem C125_narrow_refuted : exists a res, gapless a /\ arg_ok (a_len a) a /\ a_dtype a = 1 /\ all_in_range 2 (arg_vals 0 a) /\
  MakeiNextCall (repeat 0) (PArray a) 1 0 = Done (1, res) /\ exists r, nth_error res 127 = Some r /\ ~ next_same (arg_vals 0 a) (- 2 ^ 7) 127 r.
Proof.
  destruct GroupProps.C19_row_number_truncated_refuted as (keys & res & R & E & W). exists (fresh 1 keys), res. destruct (fresh_right 1 keys) as (A & B & C).
  split; [exact B|]. split; [exact A|]. split; [reflexivity|]. rewrite C. split; [exact R|]. split; [|exact W].
  unfold MakeiNextCall. cbn [fresh a_dtype]. change (int64_ok 1 && int64_ok 0) with true. change (int64_ok (1 + 1)) with true. cbn [negb orb Z.leb Z.compare Z.even].
  rewrite (Ea2Proofs.read_arg_right 0 (Z.of_nat (length keys)) (fresh 1 keys)) by (auto; lia). cbn [undef obind]. rewrite C. change (bits_of 1) with 8. cbn [Z.eqb negb]. now rewrite E.
Qed.
Print Assumptions C125_narrow_refuted.
