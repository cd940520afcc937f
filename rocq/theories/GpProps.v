(** Property C126: GroupByPack32 from its arguments to its results. *)
From Verif Require Import Base Mem AllModel EaModel EaSpec.
From Verif Require Import GroupSpec BgModel BgSpec BgProofs GpModel GpSpec GpProofs.
Local Open Scope Z_scope.

(** ** C126.  Missing: no rows ([C126_empty_refuted]), keys out of range ([C126_range_refuted]) and with gaps ([C126_gaps_refuted]); with a next array, groups
    that are not numbered by their first rows ([C126_order_refuted]) and the next rows of MakeiNext ([C126_inext_refuted]). *)
Theorem C126_keys_partial : forall junk n a u next, new_array junk -> 0 < n < 2 ^ 31 -> 0 <= u < 2 ^ 31 - 1 -> keys_given n a -> all_in_range (u + 1) (arg_vals 0 a) ->
  (forall b, next <> PArray b) ->
  exists sorted first count, GroupByPack32Call junk (PArray a) next u = Done (sorted, first, count) /\ histogram (u + 1) (arg_vals 0 a) count /\
    packed_rows (u + 1) (arg_vals 0 a) count sorted first /\ all_rows (arg_vals 0 a) sorted.
Proof. exact no_next_call. Qed.
Print Assumptions C126_keys_partial.
Theorem C126_next_partial : forall junk n a b u, new_array junk -> 0 < n < 2 ^ 31 -> 0 <= u < 2 ^ 31 - 1 -> keys_given n a -> arg_ok n b -> gapless b -> a_dtype b = 5 ->
  first_order u (arg_vals 0 a) -> linked (arg_vals 0 a) (arg_vals 0 b) ->
  exists sorted first count, GroupByPack32Call junk (PArray a) (PArray b) u = Done (sorted, first, count) /\ packed_by u (arg_vals 0 a) sorted first count.
Proof. exact next_given_call. Qed.
Print Assumptions C126_next_partial.
Theorem C126_refused : forall junk keys next u,
  (forall a, keys <> PArray a) \/ ~ (- 2 ^ 63 <= u < 2 ^ 63) \/ (exists a, keys = PArray a /\ forall bits, ~ signed_type (a_dtype a) bits) \/
  (exists a b, keys = PArray a /\ next = PArray b /\ a_len a <> a_len b) -> GroupByPack32Call junk keys next u = Error.
Proof. exact pack_refused. Qed.
Print Assumptions C126_refused.

Definition five_keys : arg Z := fresh 1 [1; 0; 2; 1; 0].
Definition five_next : arg Z := fresh 5 [3; 4; -1; -1; -1].
Definition sevens (n : nat) : list Z := repeat 7 n.
(** The same groups both ways; with a next array group 0 comes last here. *)
Example C126_example :
  new_array sevens /\ keys_given 5 five_keys /\ arg_ok 5 five_next /\ gapless five_next /\ first_order 2 (arg_vals 0 five_keys) /\
  linked (arg_vals 0 five_keys) (arg_vals 0 five_next) /\
  GroupByPack32Call sevens (PArray five_keys) PNone 2 = Done ([1; 4; 0; 3; 2], [0; 2; 4], [2; 2; 1]) /\
  GroupByPack32Call sevens (PArray five_keys) (PArray five_next) 2 = Done ([0; 3; 2; 1; 4], [3; 0; 2], [2; 2; 1]) /\
  GroupByPack32Call sevens (PArray (fresh 1 [1; 1])) (PArray (fresh 5 [1; -1])) 1 = Done ([0; 1], [-1; 0], [0; 2]).
Proof.
  destruct (fresh_right 1 [1; 0; 2; 1; 0]) as (A & B & C), (fresh_right 5 [3; 4; -1; -1; -1]) as (D & E & F).
  split; [intros n; apply repeat_length|]. split; [split; [exists 8; constructor|split; assumption]|]. split; [exact D|]. split; [exact E|].
  unfold five_keys, five_next. rewrite C, F. split.
  { split; [intros k H; cbn in H; lia|]. intros g Hg. assert (g = 1 \/ g = 2) as [-> | ->] by lia; [exists 0%nat|exists 2%nat]; (split; [reflexivity|]); intros j k Hj Ej; [lia|].
    destruct j as [|[|j]]; cbn in Ej; [injection Ej as <-; lia|injection Ej as <-; lia|lia]. }
  split; [|vm_compute; repeat split].
  split; [reflexivity|]. intros i Hi. cbn in Hi.
  destruct i as [|[|[|[|[|i]]]]]; [| | | | |lia]; eexists; (split; [reflexivity|]).
  - left. exists 3%nat. split; [reflexivity|]. split; [lia|]. split; [reflexivity|]. split; [cbn; lia|]. intros k Hk. assert (k = 1 \/ k = 2)%nat as [-> | ->] by lia; discriminate.
  - left. exists 4%nat. split; [reflexivity|]. split; [lia|]. split; [reflexivity|]. split; [cbn; lia|]. intros k Hk. assert (k = 2 \/ k = 3)%nat as [-> | ->] by lia; discriminate.
  - right. split; [reflexivity|]. intros k Hk. cbn in Hk. assert (k = 3 \/ k = 4)%nat as [-> | ->] by lia; discriminate.
  - right. split; [reflexivity|]. intros k Hk. cbn in Hk. assert (k = 4)%nat as -> by lia; discriminate.
  - right. split; [reflexivity|]. intros k Hk. cbn in Hk. lia.
Qed.

Theorem C126_empty_refuted : forall junk u, new_array junk -> 0 <= u < 2 ^ 31 - 1 -> GroupByPack32Call junk (PArray (fresh 5 [])) PNone u = Undefined.
Proof.
  intros junk u NJ HU. unfold GroupByPack32Call. rewrite int64_right by lia. cbn [fresh a_dtype a_len length negb]. change (key_type 5) with true. cbn [andb negb].
  rewrite (proj2 (Z.ltb_ge u 0)), (proj2 (Z.leb_gt (2 ^ 31 - 1) u)) by lia.
  change (2 ^ 31 <=? Z.of_nat 0) with false. cbn [orb undef obind length]. assert (E : junk 0%nat = []) by (apply length_zero_iff_nil, NJ). change (read_arg (fresh 5 [])) with (Some (@nil Z)). cbn [undef obind length]. rewrite E. reflexivity.
Qed.
Print Assumptions C126_empty_refuted.
Theorem C126_range_refuted : exists a, keys_given 2 a /\ GroupByPack32Call sevens (PArray a) PNone 1 = Undefined.
Proof.
  exists (fresh 5 [1; 2]). destruct (fresh_right 5 [1; 2]) as (A & B & _). split; [split; [exists 32; constructor|split; assumption]|reflexivity].
Qed.
Print Assumptions C126_range_refuted.
Theorem C126_gaps_refuted : exists a count, arg_ok 2 a /\ signed_type (a_dtype a) 32 /\ all_in_range 2 (arg_vals 0 a) /\
  GroupByPack32Call sevens (PArray a) PNone 1 = Done ([0; 1], [0; 1], count) /\ ~ histogram 2 (arg_vals 0 a) count.
Proof.
  exists (mkArg 5 [0; 1; 0; 1] 0 2 2), [1; 1]. split; [unfold arg_ok; cbn [a_len a_start a_mem a_step length]; split; [lia|]; split; [lia|intros; lia]|].
  split; [constructor|]. split; [intros k H; vm_compute in H; lia|]. split; [reflexivity|]. intros (_ & H). specialize (H 0 ltac:(lia)). discriminate H.
Qed.
Print Assumptions C126_gaps_refuted.
(** Group 2 before group 1: group 2 is left out, its first row and its number of rows are what the memory held. *)
Theorem C126_order_refuted : forall x, exists junk a b, new_array junk /\ keys_given 2 a /\ all_in_range 3 (arg_vals 0 a) /\ linked (arg_vals 0 a) (arg_vals 0 b) /\
  GroupByPack32Call junk (PArray a) (PArray b) 2 = Done ([1; x], [-1; 0; x], [0; 1; x]).
Proof.
  intros x. exists (repeat x), (fresh 5 [2; 1]), (fresh 5 [-1; -1]). destruct (fresh_right 5 [2; 1]) as (A & B & C), (fresh_right 5 [-1; -1]) as (_ & _ & F).
  split; [intros n; apply repeat_length|]. split; [split; [exists 32; constructor|split; assumption]|]. rewrite C, F. split; [intros k H; cbn in H; lia|]. split; [|reflexivity].
  split; [reflexivity|]. intros i Hi. cbn in Hi. destruct i as [|[|i]]; [| |lia]; eexists; (split; [reflexivity|]); right; (split; [reflexivity|]); intros k Hk; cbn in Hk; [|lia].
  assert (k = 1)%nat as -> by lia. discriminate.
Qed.
Print Assumptions C126_order_refuted.
(** MakeiNext marks the last rows by another number than GroupByPack32 looks for. *)
Theorem C126_inext_refuted : exists a d next, keys_given 3 a /\ first_order 1 (arg_vals 0 a) /\ MakeiNextCall sevens (PArray a) 1 0 = Done (d, next) /\ d = 5 /\
  GroupByPack32Call sevens (PArray a) (PArray (fresh d next)) 1 = Undefined.
Proof.
  exists (fresh 5 [1; 0; 1]), 5, [2; - 2 ^ 31; - 2 ^ 31]. destruct (fresh_right 5 [1; 0; 1]) as (A & B & C). split; [split; [exists 32; constructor|split; assumption]|].
  rewrite C. split; [|repeat split; reflexivity]. split; [intros k H; cbn in H; lia|]. intros g Hg. assert (g = 1) as -> by lia. exists 0%nat. split; [reflexivity|]. intros; lia.
Qed.
Print Assumptions C126_inext_refuted.
