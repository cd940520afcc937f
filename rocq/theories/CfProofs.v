(** Proofs about CombineFilter, CombineAccum1Filter, CombineAccum2Filter, MakeiFirst and RemoveTrailingSpaces. *)
From Coq Require Import Reals.
From Verif Require Import Base Mem MemLemmas AllModel AllSpec EaModel EaSpec Ea2Proofs SrSpec.
From Verif Require CombModel CombSpec CombProofs HashSpec SrProofs.
From Verif Require Import CfModel CfSpec.
Local Open Scope Z_scope.

Lemma bits_of d : group_type d -> exists w, index_bits d = Some w /\ 0 < w /\ highest d = 2 ^ (w - 1) - 1.
Proof. intros [-> | [-> | [-> | [-> | ->]]]]; eexists; cbn [index_bits]; repeat split; try reflexivity; lia. Qed.
Lemma bits_none d : ~ group_type d -> index_bits d = None.
Proof.
  intros H. unfold group_type in H. unfold index_bits. destruct d as [|p|p]; auto.
  do 4 (try (destruct p as [p|p|]); try reflexivity; try (exfalso; apply H; lia)).
Qed.
Lemma index_read a : groups a -> read_arg a = Some (arg_vals 0 a) /\ length (arg_vals 0 a) = Z.to_nat (a_len a) /\ 0 <= a_len a.
Proof. intros (_ & (N & OK & G) & _). split; [apply (read_arg_right 0 (a_len a)); auto; lia|]. split; [now apply arg_vals_length|lia]. Qed.
Lemma index_width a w : groups a -> 0 < w -> highest (a_dtype a) = 2 ^ (w - 1) - 1 -> CombSpec.has_width w (arg_vals 0 a).
Proof. intros (_ & _ & V) W H x Hx. rewrite Forall_forall in V. specialize (V x Hx). unfold of_its_type in V. lia. Qed.

Definition filter_vals (p : param Z) : option (list bool) := match p with PArray f => Some (map (fun b => negb (b =? 0)) (arg_vals 0 f)) | _ => None end.
Lemma filter_ok strict n p : 0 <= n -> filter_given n p -> exists o, check_filter strict n p = Done o /\ read_filter o = Done (filter_vals p).
Proof.
  intros N. destruct p as [|f|]; cbn [filter_given]; [intros _; now exists None| |intros []].
  intros (D & OK & G). exists (Some f). cbn [check_filter read_filter filter_vals]. pose proof (proj1 OK) as L. rewrite L, Z.eqb_refl, D. cbn [negb Z.eqb]. split; auto.
  rewrite (read_arg_right 0 n) by auto. reflexivity.
Qed.
Lemma filter_len n p f : 0 <= n -> filter_given n p -> filter_vals p = Some f -> length f = Z.to_nat n.
Proof. intros N. destruct p as [|g|]; cbn; try discriminate. intros (_ & OK & _) [= <-]. rewrite map_length. now apply arg_vals_length. Qed.
Lemma pass_keeps n p i : 0 <= n -> filter_given n p -> (i < Z.to_nat n)%nat -> CombSpec.pass_at (filter_vals p) i = keeps p i.
Proof.
  intros N. destruct p as [|f|]; cbn; auto. intros (_ & OK & _) H.
  rewrite (nth_indep _ false (negb (0 =? 0))) by (rewrite map_length, (arg_vals_length 0 n) by auto; auto). now rewrite (map_nth (fun b => negb (b =? 0))).
Qed.
Lemma filter_refused strict n p : filter_bad n p -> (p = POther -> strict = true) -> check_filter strict n p = Error.
Proof.
  destruct p as [|f|]; cbn; [intros []| |intros _ H; now rewrite H].
  intros [H | H] _; destruct (Z.eqb_spec n (a_len f)); cbn; auto; [|lia]. now rewrite (proj2 (Z.eqb_neq _ _)).
Qed.

(** ** CombineFilter *)
Lemma filter_call : forall ord thr index filter, fair ord -> groups index ->
  a_dtype filter = 0 -> arg_ok (a_len index) filter -> gapless filter -> Forall (fun b => b = 0 \/ b = 1) (arg_vals 0 filter) ->
  exists r, CombineFilterCall ord thr index filter = Done (a_dtype index, r) /\ Z.of_nat (length r) = a_len index /\
    forall i, (i < length r)%nat -> nth_error r i = Some (if keeps (PArray filter) i then nth i (arg_vals 0 index) 0 else 0).
Proof.
  intros ord thr index filter FO GI D OK G B. destruct (index_read index GI) as (R & L & N). destruct (bits_of _ (proj1 GI)) as (w & W & W0 & H).
  pose proof (arg_vals_length 0 _ _ OK) as LF.
  exists (map (fun q : Z * Z => if snd q =? 0 then 0 else fst q) (combine (arg_vals 0 index) (arg_vals 0 filter))).
  assert (LR : length (map (fun q : Z * Z => if snd q =? 0 then 0 else fst q) (combine (arg_vals 0 index) (arg_vals 0 filter))) = Z.to_nat (a_len index))
    by (rewrite map_length, combine_length, L, LF; lia).
  split; [|split; [lia|]].
  - unfold CombineFilterCall. rewrite (proj1 OK), Z.eqb_refl, D, W, R. cbn [negb Z.eqb undef obind]. rewrite (read_arg_right 0 (a_len index)) by auto. cbn [undef obind].
    rewrite Forall_forall in B. rewrite (CombProofs.CombineFilter_ok ord thr w _ _ FO W0 (index_width _ _ GI W0 H) B) by congruence. reflexivity.
  - intros i Hi. rewrite LR in Hi. rewrite nth_error_map. rewrite (nth_error_nth' _ (0, 0)) by (rewrite combine_length, L, LF; lia).
    rewrite combine_nth by congruence. cbn [option_map fst snd keeps]. now destruct (nth i (arg_vals 0 filter) 0 =? 0).
Qed.
Lemma filter_refused_call : forall ord thr index filter, a_len filter <> a_len index \/ a_dtype filter <> 0 \/ ~ group_type (a_dtype index) ->
  CombineFilterCall ord thr index filter = Error.
Proof.
  intros ord thr index filter H. unfold CombineFilterCall. destruct (Z.eqb_spec (a_len index) (a_len filter)); cbn [negb]; auto.
  destruct (Z.eqb_spec (a_dtype filter) 0); cbn [negb]; auto. rewrite bits_none by intuition congruence. reflexivity.
Qed.

(** ** CombineAccum2Filter *)
Lemma int64_fine z : - 2 ^ 63 <= z < 2 ^ 63 -> int64_ok z = true.
Proof. unfold int64_ok. lia. Qed.
Lemma out_type_fine size : 0 <= size < 2 ^ 63 -> group_type (out_type (CombModel.out_width size)) /\ size <= highest (out_type (CombModel.out_width size)).
Proof.
  intros H. unfold CombModel.out_width, group_type. destruct (Z.ltb_spec size 120); [|destruct (Z.ltb_spec size 32000); [|destruct (Z.ltb_spec size 2000000000)]].
  all: cbn [out_type]; split; [auto 6|]; unfold highest; cbn [Z.eqb Pos.eqb]; lia.
Qed.
Lemma out_type_pair size : out_type (CombModel.out_width size) = pair_type size.
Proof. unfold CombModel.out_width, pair_type. destruct (size <? 120), (size <? 32000), (size <? 2000000000); reflexivity. Qed.
Lemma pairs_call : forall ord thr a1 a2 max1 max2 filter, fair ord -> groups a1 -> groups a2 -> a_len a2 = a_len a1 -> filter_given (a_len a1) filter ->
  -1 <= max1 < 2 ^ 63 - 1 -> -1 <= max2 < 2 ^ 63 - 1 -> (max1 + 1) * (max2 + 1) < 2 ^ 63 ->
  Forall (fun x => 0 <= x <= max1) (arg_vals 0 a1) -> Forall (fun x => 0 <= x <= max2) (arg_vals 0 a2) ->
  exists d r, CombineAccum2Call ord thr a1 a2 max1 max2 filter = Done (d, r) /\ Z.of_nat (length r) = a_len a1 /\
    d = pair_type ((max1 + 1) * (max2 + 1)) /\ (max1 + 1) * (max2 + 1) <= highest d /\
    (forall i, (i < length r)%nat -> nth_error r i = Some (if keeps filter i then nth i (arg_vals 0 a2) 0 * (max1 + 1) + nth i (arg_vals 0 a1) 0 else 0)) /\
    (forall i j, (i < length r)%nat -> (j < length r)%nat -> keeps filter i = true -> keeps filter j = true ->
       (nth_error r i = nth_error r j <-> nth i (arg_vals 0 a1) 0 = nth j (arg_vals 0 a1) 0 /\ nth i (arg_vals 0 a2) 0 = nth j (arg_vals 0 a2) 0)).
Proof.
  intros ord thr a1 a2 max1 max2 filter FO G1 G2 LL GF M1 M2 MM V1 V2.
  destruct (index_read a1 G1) as (R1 & L1 & N1). destruct (index_read a2 G2) as (R2 & L2 & N2).
  destruct (bits_of _ (proj1 G1)) as (w1 & W1 & _ & _). destruct (bits_of _ (proj1 G2)) as (w2 & W2 & _ & _).
  destruct (filter_ok true _ _ N1 GF) as (o & C & RF). rewrite Forall_forall in V1, V2.
  assert (P0 : 0 <= (max1 + 1) * (max2 + 1)) by (apply Z.mul_nonneg_nonneg; lia).
  destruct (out_type_fine _ (conj P0 MM)) as (T & HT).
  exists (out_type (CombModel.out_width ((max1 + 1) * (max2 + 1)))).
  set (row := fun i => if CombSpec.pass_at (filter_vals filter) i then nth i (arg_vals 0 a2) 0 * (max1 + 1) + nth i (arg_vals 0 a1) 0 else 0).
  exists (map row (seq 0 (length (arg_vals 0 a1)))).
  assert (LR : length (map row (seq 0 (length (arg_vals 0 a1)))) = Z.to_nat (a_len a1)) by (rewrite map_length, seq_length; auto).
  assert (RW : forall i, (i < Z.to_nat (a_len a1))%nat -> nth_error (map row (seq 0 (length (arg_vals 0 a1)))) i =
    Some (if keeps filter i then nth i (arg_vals 0 a2) 0 * (max1 + 1) + nth i (arg_vals 0 a1) 0 else 0)).
  { intros i Hi. rewrite nth_error_map, nth_error_seq, L1. destruct (Nat.ltb_spec i (Z.to_nat (a_len a1))); [|lia]. cbn [option_map Nat.add]. unfold row.
    now rewrite (pass_keeps (a_len a1)) by auto. }
  split; [|split; [lia|]; split; [apply out_type_pair|]; split; [auto|]; split].
  - unfold CombineAccum2Call. cbv zeta. rewrite (int64_fine max1), (int64_fine max2), (int64_fine (max1 + 1)), (int64_fine (max2 + 1)), (int64_fine ((max1 + 1) * (max2 + 1))) by lia.
    cbn [andb negb]. rewrite LL, Z.eqb_refl, C. cbn [negb obind]. rewrite (proj2 (Z.ltb_ge _ _)) by auto. rewrite W1, W2, R1, R2. cbn [undef obind]. rewrite RF. cbn [obind].
    assert (LF : forall f, filter_vals filter = Some f -> length f = length (arg_vals 0 a1)) by (intros f E; rewrite (filter_len _ _ _ N1 GF E); now rewrite L1).
    assert (LA : length (arg_vals 0 a2) = length (arg_vals 0 a1)) by congruence.
    rewrite (CombProofs.Accum2_ok ord thr _ _ max1 max2 _ FO LA LF V1 V2) by lia. reflexivity.
  - intros i Hi. apply RW. lia.
  - intros i j Hi Hj Ki Kj. rewrite LR in Hi, Hj. rewrite !RW by auto. rewrite Ki, Kj.
    assert (I1 : 0 <= nth i (arg_vals 0 a1) 0 < max1 + 1) by (pose proof (V1 _ (nth_In (arg_vals 0 a1) 0 ltac:(rewrite L1; exact Hi))); lia).
    assert (I2 : 0 <= nth j (arg_vals 0 a1) 0 < max1 + 1) by (pose proof (V1 _ (nth_In (arg_vals 0 a1) 0 ltac:(rewrite L1; exact Hj))); lia).
    rewrite <- (CombProofs.pair_inj (max1 + 1)) by auto. split; [now intros [= E]|now intros ->].
Qed.
Lemma pairs_refused : forall ord thr a1 a2 max1 max2 filter, -1 <= max1 < 2 ^ 63 - 1 -> -1 <= max2 < 2 ^ 63 - 1 -> (max1 + 1) * (max2 + 1) < 2 ^ 63 ->
  a_len a2 <> a_len a1 \/ filter_bad (a_len a1) filter \/ ~ group_type (a_dtype a1) \/ ~ group_type (a_dtype a2) ->
  CombineAccum2Call ord thr a1 a2 max1 max2 filter = Error.
Proof.
  intros ord thr a1 a2 max1 max2 filter M1 M2 MM H. assert (P0 : 0 <= (max1 + 1) * (max2 + 1)) by (apply Z.mul_nonneg_nonneg; lia).
  unfold CombineAccum2Call. cbv zeta. rewrite (int64_fine max1), (int64_fine max2), (int64_fine (max1 + 1)), (int64_fine (max2 + 1)), (int64_fine ((max1 + 1) * (max2 + 1))) by lia.
  cbn [andb negb]. destruct (Z.eqb_spec (a_len a1) (a_len a2)) as [E | E]; cbn [negb]; auto. destruct H as [H | [H | H]]; [congruence| |].
  - rewrite filter_refused by auto. reflexivity.
  - assert (B : index_bits (a_dtype a1) = None \/ index_bits (a_dtype a2) = None) by (destruct H; [left|right]; now apply bits_none).
    assert (Z : forall o, (if (max1 + 1) * (max2 + 1) <? 0 then @Error (Z * list Z) else
      match index_bits (a_dtype a1), index_bits (a_dtype a2) with Some _, Some _ => obind (undef (read_arg a1)) (fun xs => obind (undef (read_arg a2)) (fun ys => obind (read_filter o) (fun bs =>
             obind (lift (CombModel.CombineAccum2Filter ord thr xs ys max1 max2 bs)) (fun r => Done (out_type (CombModel.out_width ((max1 + 1) * (max2 + 1))), r)))))
         | _, _ => Error end) = Error).
    { intros o. destruct ((max1 + 1) * (max2 + 1) <? 0); auto. destruct B as [-> | ->]; auto. now destruct (index_bits (a_dtype a1)). }
    unfold check_filter. destruct filter as [|f|]; cbn [obind]; auto. destruct (negb (a_len a1 =? a_len f)); cbn [obind]; auto. destruct (negb (a_dtype f =? 0)); cbn [obind]; auto.
Qed.

(** ** CombineAccum1Filter and MakeiFirst *)
Lemma group_rows_kept index max1 filter : groups index -> filter_given (a_len index) filter ->
  CombSpec.rows_kept max1 (arg_vals 0 index) (filter_vals filter) = group_rows index max1 filter.
Proof.
  intros GI GF. destruct (index_read index GI) as (_ & L & N). unfold CombSpec.rows_kept, CombModel.rows_filter, group_rows. rewrite L.
  apply list_ext. intros i. rewrite !nth_error_map, nth_error_seq.
  assert (LF : length (match filter_vals filter with None => repeat true (Z.to_nat (a_len index)) | Some f => f end) = Z.to_nat (a_len index)).
  { destruct (filter_vals filter) as [f|] eqn:E; [now apply (filter_len _ _ _ N GF)|apply repeat_length]. }
  destruct (Nat.ltb_spec i (Z.to_nat (a_len index))) as [H | H].
  - rewrite (nth_error_nth' _ (0, true)) by (rewrite combine_length, L, LF; lia). rewrite combine_nth by congruence. cbn [option_map fst snd Nat.add].
    rewrite <- (pass_keeps (a_len index)) by auto. do 5 f_equal. destruct (filter_vals filter) as [f|] eqn:E; cbn [CombSpec.pass_at].
    + apply nth_indep. rewrite (filter_len _ _ _ N GF E). lia.
    + apply nth_repeat.
  - cbn [option_map]. rewrite (proj2 (nth_error_None _ _)); auto. rewrite combine_length, L, LF. lia.
Qed.
Lemma groups_call : forall junk index max1 filter, groups index -> a_len index <= 2 ^ 31 -> filter_given (a_len index) filter -> -1 <= max1 < 2000000000 ->
  exists out first, CombineAccum1Call junk index max1 filter = Done (a_dtype index, out, first, Z.of_nat (length first)) /\
    HashSpec.grouped (group_rows index max1 filter) out first.
Proof.
  intros junk index max1 filter GI LI GF M. destruct (index_read index GI) as (R & L & N). destruct (bits_of _ (proj1 GI)) as (w & W & W0 & H).
  destruct (filter_ok false _ _ N GF) as (o & C & RF).
  destruct (CombProofs.Accum1_ok w (arg_vals 0 index) max1 (filter_vals filter) (map junk (seq 0 (Z.to_nat (a_len index))))) as (out & first & E & G); auto.
  - now apply index_width.
  - lia.
  - intros f E. rewrite L. now apply (filter_len _ _ _ N GF).
  - now rewrite map_length, seq_length.
  - exists out, first. rewrite group_rows_kept in G by auto. split; auto. unfold CombineAccum1Call. rewrite int64_fine by lia. cbn [negb]. rewrite C. cbn [obind].
    rewrite int64_fine by lia. cbn [negb]. rewrite (proj2 (Z.ltb_ge _ _)), (proj2 (Z.ltb_ge _ _)) by lia. cbn [orb]. rewrite W, R. cbn [undef obind]. rewrite RF. cbn [obind].
    rewrite E. reflexivity.
Qed.
Lemma check_cases strict n p : check_filter strict n p = Error \/ exists o, check_filter strict n p = Done o.
Proof. destruct p as [|f|]; cbn; eauto; [|destruct strict; eauto]. destruct (negb (n =? a_len f)); auto. destruct (negb (a_dtype f =? 0)); eauto. Qed.
Lemma groups_refused : forall junk index max1 filter, max1 < 2 ^ 63 - 1 ->
  (filter_bad (a_len index) filter /\ filter <> POther) \/ ~ -1 <= max1 < 2000000000 \/ ~ group_type (a_dtype index) -> CombineAccum1Call junk index max1 filter = Error.
Proof.
  intros junk index max1 filter M H. unfold CombineAccum1Call. destruct (int64_ok max1) eqn:I; cbn [negb]; auto. unfold int64_ok in I.
  destruct (check_cases false (a_len index) filter) as [-> | (o & C)]; auto. destruct H as [[H K] | H].
  - rewrite filter_refused by (auto; now intros ->). reflexivity.
  - rewrite C. cbn [obind]. rewrite int64_fine by lia. cbn [negb]. destruct ((max1 + 1 <? 0) || (2000000000 <? max1 + 1)) eqn:B; auto.
    destruct H as [H | H]; [lia|]. now rewrite bits_none.
Qed.
Lemma first_refused : forall index max1 filter last, max1 < 2 ^ 63 - 1 ->
  (filter_bad (a_len index) filter /\ filter <> POther) \/ ~ -1 <= max1 < 20000000000 \/ ~ group_type (a_dtype index) -> MakeiFirstCall index max1 filter last = Error.
Proof.
  intros index max1 filter last M H. unfold MakeiFirstCall. destruct (int64_ok max1 && int64_ok last) eqn:I; cbn [negb]; auto. unfold int64_ok in I.
  destruct (check_cases false (a_len index) filter) as [-> | (o & C)]; auto. destruct H as [[H K] | H].
  - rewrite filter_refused by (auto; now intros ->). reflexivity.
  - rewrite C. cbn [obind]. rewrite int64_fine by lia. cbn [negb]. destruct ((max1 + 1 <? 0) || (20000000000 <? max1 + 1)) eqn:B; auto.
    destruct H as [H | H]; [lia|]. now rewrite bits_none.
Qed.
Lemma first_call : forall index max1 filter last, groups index -> filter_given (a_len index) filter -> -1 <= max1 < 20000000000 -> - 2 ^ 63 <= last < 2 ^ 63 ->
  exists first, MakeiFirstCall index max1 filter last = Done first /\ CombSpec.rows_of_groups (negb (last =? 0)) max1 (group_rows index max1 filter) first.
Proof.
  intros index max1 filter last GI GF M ML. destruct (index_read index GI) as (R & L & N). destruct (bits_of _ (proj1 GI)) as (w & W & W0 & H).
  destruct (filter_ok false _ _ N GF) as (o & C & RF).
  destruct (CombProofs.MakeiFirst_ok (arg_vals 0 index) max1 (filter_vals filter) (negb (last =? 0))) as (first & E & G); auto.
  - intros f E. rewrite L. now apply (filter_len _ _ _ N GF).
  - exists first. rewrite group_rows_kept in G by auto. split; auto. unfold MakeiFirstCall. rewrite (int64_fine max1), (int64_fine last) by lia. cbn [andb negb]. rewrite C. cbn [obind].
    rewrite int64_fine by lia. cbn [negb]. rewrite (proj2 (Z.ltb_ge _ _)), (proj2 (Z.ltb_ge _ _)) by lia. cbn [orb]. rewrite W, R. cbn [undef obind]. rewrite RF. cbn [obind].
    rewrite E. reflexivity.
Qed.

(** ** RemoveTrailingSpaces *)
Lemma concat_len {X} (l : list (list X)) size : Forall (fun s => length s = size) l -> length (concat l) = (length l * size)%nat.
Proof. induction 1 as [|s l E _ IH]; auto. cbn [concat length]. rewrite app_length, E, IH. lia. Qed.
Lemma concat_firstn {X} (l : list (list X)) size k : Forall (fun s => length s = size) l -> firstn (k * size) (concat l) = concat (firstn k l).
Proof.
  intros H. revert k. induction H as [|s l E _ IH]; intros [|k]; auto; [apply firstn_nil|]. cbn [concat firstn]. rewrite firstn_app, E.
  rewrite firstn_all2 by lia. f_equal. rewrite <- IH. f_equal. lia.
Qed.
Lemma concat_skipn {X} (l : list (list X)) size k : Forall (fun s => length s = size) l -> skipn (k * size) (concat l) = concat (skipn k l).
Proof.
  intros H. revert k. induction H as [|s l E _ IH]; intros [|k]; auto; [apply skipn_nil|]. cbn [concat skipn]. rewrite skipn_app, E.
  rewrite skipn_all2 by lia. cbn [app]. rewrite <- IH. f_equal. lia.
Qed.
Lemma trailing_len n w chars : length chars = (n * w)%nat -> length (CombModel.TrailingSpaces n w chars) = length chars.
Proof. destruct n as [|n]; auto. intros H. apply (CombProofs.TrailingSpaces_ok (S n) w chars 0 H). lia. Qed.
Lemma spaces_call : forall size a, texts_of size a ->
  exists mem, RemoveTrailingSpacesCall size a = Done mem /\ elsewhere (a_start a * Z.of_nat size) (a_len a * Z.of_nat size) (concat (a_mem a)) mem /\
    forall i, Z.of_nat i < a_len a -> CombSpec.trimmed (nth i (arg_vals [] a) []) (item_at size (Z.to_nat (a_start a) + i) mem).
Proof.
  intros size a (D & (N & OK & G) & S). pose proof (read_arg_right (@nil Z) _ _ (proj1 N) OK G) as R.
  pose proof (arg_vals_length (@nil Z) _ _ OK) as L.
  assert (RA : 0 <= a_start a /\ a_start a + a_len a <= Z.of_nat (length (a_mem a)) /\ arg_vals [] a = firstn (Z.to_nat (a_len a)) (skipn (Z.to_nat (a_start a)) (a_mem a))).
  { unfold read_arg in R. destruct (0 <=? a_start a) eqn:B1; [|discriminate]. destruct (a_start a + a_len a <=? Z.of_nat (length (a_mem a))) eqn:B2; [|discriminate].
    injection R as <-. repeat split; lia. }
  destruct RA as (B1 & B2 & V).
  assert (SI : Forall (fun s => length s = size) (arg_vals [] a)).
  { rewrite V. apply Forall_forall. intros s Hs. rewrite Forall_forall in S. apply S. apply In_nth_error in Hs as (i & Hi). rewrite nth_error_firstn in Hi.
    destruct (i <? Z.to_nat (a_len a))%nat; [|discriminate]. rewrite nth_error_skipn in Hi. now apply nth_error_In in Hi. }
  pose proof (concat_len _ _ SI) as LC. pose proof (trailing_len _ _ _ LC) as LT. pose proof (concat_len _ _ S) as LM.
  set (r := CombModel.TrailingSpaces (length (arg_vals [] a)) size (concat (arg_vals [] a))) in *.
  exists (firstn (Z.to_nat (a_start a) * size) (concat (a_mem a)) ++ r ++ skipn (Z.to_nat (a_start a) * size + length r) (concat (a_mem a))).
  split; [|split].
  - unfold RemoveTrailingSpacesCall. replace ((a_dtype a =? 18) || (a_dtype a =? 19)) with true by (destruct D as [-> | ->]; reflexivity). rewrite R. reflexivity.
  - assert (LZ : a_len a * Z.of_nat size = Z.of_nat (length r)) by (rewrite LT, LC, L; nia).
    rewrite LZ. replace (Z.to_nat (a_start a) * size)%nat with (Z.to_nat (a_start a * Z.of_nat size)) by nia. apply SrProofs.splice_elsewhere; [nia|].
    rewrite <- LZ, LM. nia.
  - intros i Hi. assert (Hi' : (i < length (arg_vals [] a))%nat) by lia. destruct (CombProofs.TrailingSpaces_ok _ _ _ i LC Hi') as (_ & T).
    replace (firstn size (skipn (i * size) (concat (arg_vals [] a)))) with (nth i (arg_vals [] a) []) in T.
    2:{ rewrite concat_skipn by auto. assert (Q : nth_error (arg_vals [] a) i = Some (nth i (arg_vals [] a) [])) by (apply nth_error_nth'; auto).
        apply nth_error_split in Q as (p & q & E & LP). rewrite E at 2. rewrite skipn_app, <- LP, Nat.sub_diag, skipn_all. cbn [app skipn concat].
        assert (LI : length (nth i (arg_vals [] a) []) = size) by (rewrite Forall_forall in SI; apply SI, nth_In; auto).
        rewrite LP. rewrite firstn_app, LI, Nat.sub_diag, firstn_O, app_nil_r. now rewrite firstn_all2 by lia. }
    unfold item_at. match goal with |- CombSpec.trimmed _ ?x => replace x with (firstn size (skipn (i * size) r)); [exact T|] end.
    assert (F : length (firstn (Z.to_nat (a_start a) * size) (concat (a_mem a))) = (Z.to_nat (a_start a) * size)%nat) by (rewrite firstn_length, LM; nia).
    rewrite skipn_app, F. rewrite (skipn_all2 (firstn _ _)) by (rewrite F; lia). cbn [app].
    replace ((Z.to_nat (a_start a) + i) * size - Z.to_nat (a_start a) * size)%nat with (i * size)%nat by lia.
    rewrite skipn_app, firstn_app. replace (size - length (skipn (i * size) r))%nat with 0%nat; [now rewrite firstn_O, app_nil_r|].
    rewrite skipn_length, LT, LC. nia.
Qed.
Lemma spaces_refused : forall size a, a_dtype a <> 18 -> a_dtype a <> 19 -> RemoveTrailingSpacesCall size a = Error.
Proof. intros size a H1 H2. unfold RemoveTrailingSpacesCall. now rewrite (proj2 (Z.eqb_neq _ _) H1), (proj2 (Z.eqb_neq _ _) H2). Qed.
