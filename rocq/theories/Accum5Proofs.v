(** Proofs: instances and counterexamples of the accumulating group-by. *)
From Verif Require Import Base Mem MemLemmas Inter Num AccumModel AccumSpec AccumProofs Accum2Proofs Accum3Proofs Accum4Proofs.
Local Open Scope Z_scope.

Lemma wrap64_add a b : wrap64 (wrap64 a + b) = wrap64 (a + b).
Proof.
  unfold wrap64. f_equal. replace ((a + 2 ^ 63) mod 2 ^ 64 - 2 ^ 63 + b + 2 ^ 63) with ((a + 2 ^ 63) mod 2 ^ 64 + b) by lia.
  rewrite Zplus_mod_idemp_l. f_equal. lia.
Qed.

Lemma add64_exact : exact_add 0 add64.
Proof.
  unfold add64. repeat split.
  - intros. f_equal. lia.
  - intros. rewrite wrap64_add, (Z.add_comm a (wrap64 _)), wrap64_add. f_equal. lia.
Qed.

Lemma fadd_exact : exact_add (Fin 0) fadd.
Proof. repeat split; intros; repeat match goal with x : fl |- _ => destruct x end; simpl; auto; f_equal; lia. Qed.

Lemma z_order : order_ok ok64 Z.ltb.
Proof. repeat split; intros; lia. Qed.
Lemma z_order_total : order_total ok64 Z.ltb.
Proof. intros a b _ _ H1 H2. lia. Qed.
Lemma z_order_max : order_ok ok64 (fun a b => b <? a).
Proof. repeat split; intros; lia. Qed.
Lemma f_order : order_ok fok flt.
Proof.
  repeat split.
  - apply flt_irrefl.
  - apply flt_trans.
  - intros a b c. destruct a, b, c; simpl; auto; try discriminate. lia.
Qed.
Lemma f_order_total : order_total fok flt.
Proof. intros a b Ha Hb H1 H2. apply feq_eq, flt_total; auto; [destruct a | destruct b]; auto; discriminate. Qed.

(** ** C11 *)
Lemma seq_sum {T U} okT (uinv zero : U) (conv : T -> U) add low high rows out0 : 0 <= low <= high -> high <= Z.of_nat (length out0) ->
  exists res, GroupByOne (AccumSum okT uinv zero conv add) low high rows out0 = Some res /\ length res = length out0 /\
    reduced (sum_spec okT uinv zero conv add) low high rows res /\ outside_kept low high out0 res.
Proof. intros. apply group_by_one; auto. intros. apply one_sum. Qed.
Lemma seq_nansum {T U} okT (zero : U) (conv : T -> U) add low high rows out0 : 0 <= low <= high -> high <= Z.of_nat (length out0) ->
  exists res, GroupByOne (AccumNanSum okT zero conv add) low high rows out0 = Some res /\ length res = length out0 /\
    reduced (nansum_spec okT zero conv add) low high rows res /\ outside_kept low high out0 res.
Proof. intros. apply group_by_one; auto. intros. apply one_nansum. Qed.
Lemma seq_mean {T U} okT (uinv zero : U) (conv : T -> U) add div low high rows out0 : 0 <= low <= high -> high <= Z.of_nat (length out0) ->
  exists res, GroupByOne (AccumMean okT uinv zero conv add div) low high rows out0 = Some res /\ length res = length out0 /\
    reduced (mean_spec okT uinv zero conv add div) low high rows res /\ outside_kept low high out0 res.
Proof. intros. apply group_by_one; auto. intros. apply one_mean. Qed.
Lemma seq_nanmean {T U} okT (uinv zero : U) (conv : T -> U) add div low high rows out0 : 0 <= low <= high -> high <= Z.of_nat (length out0) ->
  exists res, GroupByOne (AccumNanMean okT uinv zero conv add div) low high rows out0 = Some res /\ length res = length out0 /\
    reduced (nanmean_spec okT uinv zero conv add div) low high rows res /\ outside_kept low high out0 res.
Proof. intros. apply group_by_one; auto. intros. apply one_nanmean. Qed.
Lemma seq_min {T U} okT okU (uinv : U) (conv : T -> U) lt low high rows out0 :
  order_ok okU lt -> (forall x, okT x = true -> okU (conv x) = true) -> 0 <= low <= high -> high <= Z.of_nat (length out0) ->
  exists res, GroupByOne (AccumMin okT uinv conv lt) low high rows out0 = Some res /\ length res = length out0 /\
    reduced (min_spec okT uinv conv lt) low high rows res /\ outside_kept low high out0 res.
Proof. intros. apply group_by_one; auto. intros. eapply one_min; eauto. Qed.
Lemma seq_nanmin {T U} okT okU (uinv : U) (conv : T -> U) lt low high rows out0 :
  order_ok okU lt -> (forall x, okT x = true -> okU (conv x) = true) -> okU uinv = false -> 0 <= low <= high -> high <= Z.of_nat (length out0) ->
  exists res, GroupByOne (AccumNanMin okT okU uinv conv lt) low high rows out0 = Some res /\ length res = length out0 /\
    reduced (nanmin_spec okT uinv conv lt) low high rows res /\ outside_kept low high out0 res.
Proof. intros. apply group_by_one; auto. intros. apply one_nanmin; auto. Qed.

Lemma seq_float {T U D} okT (uinv zero : U) (zeroD invD : D) (convD : T -> D) castf addD divD low high rows out0 tmp0 :
  castf zeroD = zero -> 0 <= low <= high -> high <= Z.of_nat (length out0) -> length tmp0 = length out0 ->
  (exists res, GroupByOneFloat zero zeroD (AccumSumFloat okT uinv convD castf addD) low high rows out0 tmp0 = Some res /\
     length res = length out0 /\ reduced (sumf_spec okT uinv zeroD convD castf addD) low high rows res) /\
  (exists res, GroupByOneFloat zero zeroD (AccumMeanFloat okT uinv invD convD castf addD divD) low high rows out0 tmp0 = Some res /\
     length res = length out0 /\ reduced (meanf_spec okT uinv zeroD convD castf addD divD) low high rows res) /\
  (exists res, GroupByOneFloat zero zeroD (AccumNanMeanFloat okT uinv convD castf addD divD) low high rows out0 tmp0 = Some res /\
     length res = length out0 /\ reduced (nanmeanf_spec okT uinv zeroD convD castf addD divD) low high rows res).
Proof.
  intros Hz H0 H1 Hl. split; [|split]; apply one_float; auto.
  - intros. now apply sumf_bin.
  - intros. now apply meanf_bin.
  - intros. now apply nanmeanf_bin.
Qed.

Lemma seq_nansum_float {T U D} okT (uinv zero : U) (zeroD : D) (convD : T -> D) castf addD low high rows out0 tmp0 :
  castf zeroD = zero -> 0 <= low <= high -> high <= Z.of_nat (length out0) -> length tmp0 = length out0 ->
  low = 0 \/ high - low < Z.of_nat (length rows) ->
  exists res, GroupByOneFloat zero zeroD (AccumNanSumFloat okT convD castf addD) low high rows out0 tmp0 = Some res /\
     length res = length out0 /\ reduced (nansumf_spec okT zeroD convD castf addD) low high rows res.
Proof. intros Hz H0 H1 Hl Hor. apply one_float; auto. intros. now apply nansumf_bin. Qed.

(** ** C13 *)
Section Both.
  Context {T U : Type} (okT : T -> bool) (okU : U -> bool) (uinv zero : U) (conv : T -> U)
          (add : U -> U -> U) (div : U -> Z -> U) (lt : U -> U -> bool).
  Context (low high : Z) (c : nat) (rows : list (Z * T)) (asg : list (list (list (Z * T)))) (junks : list (list U)) (out0 out1 : list U).

  Notation scattered := (scattered low high c rows asg junks out0 out1).

  Lemma both (a : acc_fun T U) gf (P : list T -> U -> Prop) :
    (forall V W r, Permutation V W -> P V r -> P W r) -> (forall V r r', P V r -> P V r' -> r = r') ->
    (forall vs cs, Forall2 (core_cell a) vs cs ->
       P (concat (map core_vals vs)) (g_finish gf (gfold (g_step gf) true cs
         (match g_fill gf with Some z => z | None => uinv end, match cs with (_, c) :: _ => snd c | [] => 0 end, 0)))) ->
    (exists r, GroupByOne a low high rows out1 = Some r /\ length r = length out1 /\ reduced P low high rows r /\ outside_kept low high out1 r) ->
    scattered ->
    exists r1 r2, GroupByScatter uinv a gf low high asg junks out0 = Some r1 /\ GroupByOne a low high rows out1 = Some r2 /\
      agree low high r1 r2 /\ reduced P low high rows r1.
  Proof.
    intros HP HD HG (r2 & E2 & _ & R2 & _) (Hc & Ha & Hne & Hl & H0 & H1 & Hl1 & Hj).
    destruct (group_by_scatter a gf uinv P low high c rows asg junks out0) as (r1 & E1 & _ & R1); auto.
    exists r1, r2. split; [exact E1|]. split; [exact E2|]. split; auto. intros g Hg. eapply reduced_agree; eauto.
  Qed.

  Lemma range1 : scattered -> 0 <= low <= high /\ high <= Z.of_nat (length out1).
  Proof. intros (_ & _ & _ & _ & H0 & H1 & -> & _). auto. Qed.

  Lemma both_sum : exact_add zero add -> scattered ->
    exists r1 r2, GroupByScatter uinv (AccumSum okT uinv zero conv add) (GatherSum uinv zero add) low high asg junks out0 = Some r1 /\
      GroupByOne (AccumSum okT uinv zero conv add) low high rows out1 = Some r2 /\ agree low high r1 r2 /\
      reduced (sum_spec okT uinv zero conv add) low high rows r1.
  Proof.
    clear okU div lt.
    intros Hx S. apply both; auto.
    - apply sum_perm; auto.
    - unfold sum_spec. congruence.
    - intros. apply gather_sum; auto.
    - destruct (range1 S). apply seq_sum; assumption.
  Qed.
  Lemma both_nansum : exact_add zero add -> scattered ->
    exists r1 r2, GroupByScatter uinv (AccumNanSum okT zero conv add) (GatherNanSum zero add) low high asg junks out0 = Some r1 /\
      GroupByOne (AccumNanSum okT zero conv add) low high rows out1 = Some r2 /\ agree low high r1 r2 /\
      reduced (nansum_spec okT zero conv add) low high rows r1.
  Proof.
    clear okU div lt.
    intros Hx S. apply both; auto.
    - apply nansum_perm; auto.
    - unfold nansum_spec. congruence.
    - intros. apply gather_nansum; auto.
    - destruct (range1 S). apply seq_nansum; assumption.
  Qed.
  Lemma both_mean : exact_add zero add -> okU uinv = false -> (forall s n, okU s = false -> div s n = uinv) -> scattered ->
    exists r1 r2, GroupByScatter uinv (AccumMean okT uinv zero conv add div) (GatherMean okU uinv zero add div) low high asg junks out0 = Some r1 /\
      GroupByOne (AccumMean okT uinv zero conv add div) low high rows out1 = Some r2 /\ agree low high r1 r2 /\
      reduced (mean_spec okT uinv zero conv add div) low high rows r1.
  Proof.
    clear lt.
    intros Hx Hi Hd S. apply both; auto.
    - apply mean_perm; auto.
    - unfold mean_spec. congruence.
    - intros. apply gather_mean; auto.
    - destruct (range1 S). apply seq_mean; assumption.
  Qed.
  Lemma both_nanmean : exact_add zero add -> scattered ->
    exists r1 r2, GroupByScatter uinv (AccumNanMean okT uinv zero conv add div) (GatherNanMean uinv zero add div) low high asg junks out0 = Some r1 /\
      GroupByOne (AccumNanMean okT uinv zero conv add div) low high rows out1 = Some r2 /\ agree low high r1 r2 /\
      reduced (nanmean_spec okT uinv zero conv add div) low high rows r1.
  Proof.
    clear okU lt.
    intros Hx S. apply both; auto.
    - apply nanmean_perm; auto.
    - unfold nanmean_spec, mean_spec. congruence.
    - intros. apply gather_nanmean; auto.
    - destruct (range1 S). apply seq_nanmean; assumption.
  Qed.
  Lemma both_min : order_ok okU lt -> order_total okU lt -> (forall x, okT x = true -> okU (conv x) = true) -> okU uinv = false -> scattered ->
    exists r1 r2, GroupByScatter uinv (AccumMin okT uinv conv lt) (GatherMin okU uinv lt) low high asg junks out0 = Some r1 /\
      GroupByOne (AccumMin okT uinv conv lt) low high rows out1 = Some r2 /\ agree low high r1 r2 /\
      reduced (min_spec okT uinv conv lt) low high rows r1.
  Proof.
    clear zero add div.
    intros Ho Ht Hc Hi S. apply both; auto.
    - apply min_perm.
    - eapply min_unique; eauto.
    - intros. apply gather_min; auto.
    - destruct (range1 S). eapply seq_min; eassumption.
  Qed.
  Lemma both_nanmin : order_ok okU lt -> order_total okU lt -> (forall x, okT x = true -> okU (conv x) = true) -> okU uinv = false -> scattered ->
    exists r1 r2, GroupByScatter uinv (AccumNanMin okT okU uinv conv lt) (GatherNanMin okU lt) low high asg junks out0 = Some r1 /\
      GroupByOne (AccumNanMin okT okU uinv conv lt) low high rows out1 = Some r2 /\ agree low high r1 r2 /\
      reduced (nanmin_spec okT uinv conv lt) low high rows r1.
  Proof.
    clear zero add div.
    intros Ho Ht Hc Hi S. apply both; auto.
    - apply nanmin_perm.
    - eapply nanmin_unique; eauto.
    - intros. apply gather_nanmin; auto.
    - destruct (range1 S). eapply seq_nanmin; eassumption.
  Qed.
End Both.

(** ** Counterexamples *)
(** float32 nansum, bins 1 and 2, one row: bin 2 has no rows and its result is what the memory held before. *)
Lemma nansum_float_seq_bad : forall j, GroupByOneFloat (Fin 0) (Fin 0) (AccumNanSumFloat fok (fun x => x) (fun x => x) fadd) 1 3 [(1, Fin 5)] [Fin 1; Fin 1; j] [Fin 0; Fin 0; Fin 0]
  = Some [Fin 0; Fin 5; j].
Proof. intros j. vm_compute. reflexivity. Qed.

Definition bad_rows : list (Z * fl) := repeat (1, Fin 1) (S (Z.to_nat 16384)).
Definition bad_asg : list (list (list (Z * fl))) := map (fun b => [b]) (row_blocks (Z.to_nat 16384) bad_rows).

Lemma assigned_one_each {A} c (rows : list A) : assigned c rows (map (fun b => [b]) (row_blocks c rows)).
Proof. unfold assigned. replace (concat (map (fun b => [b]) (row_blocks c rows))) with (row_blocks c rows); auto. induction (row_blocks c rows); simpl; congruence. Qed.

Lemma nansum_float_scatter_bad : exists rows asg junks out0 r,
  assigned (Z.to_nat 16384) rows asg /\ length junks = length asg /\ Forall (fun j => length j = length out0) junks /\
  GroupByScatterFloat NaN (Fin 0) (Fin 0) (AccumNanSumFloat fok (fun x => x) (fun x => x) fadd) (GatherNanSum (Fin 0) fadd) 1 3 asg junks out0 = Some r /\
  group_vals rows 2 = [] /\ nth_error r 2 = Some (Fin 77).
Proof.
  exists bad_rows, bad_asg, [[(Fin 77, Fin 77); (Fin 77, Fin 77); (Fin 77, Fin 77)]; [(Fin 77, Fin 77); (Fin 77, Fin 77); (Fin 77, Fin 77)]], [Fin 0; Fin 0; Fin 0], [Fin 0; Fin 16385; Fin 77].
  split; [apply assigned_one_each|]. split; [vm_compute; reflexivity|]. split; [repeat constructor|].
  split; [vm_compute; reflexivity|]. split; [vm_compute; reflexivity|]. reflexivity.
Qed.

(** With addition that rounds, the assignment changes the sum: sums of 16 and more are rounded to multiples
    of 4, as in a floating point type with two bits less than it takes to tell 16 from 17. *)
Definition add_round (a b : Z) : Z := if a + b <? 16 then a + b else (a + b + 2) / 4 * 4.
Lemma inexact_scatter_bad : exists rows asg1 asg2 r1 r2,
  assigned 1 rows asg1 /\ assigned 1 rows asg2 /\
  GroupByScatter INV64 (AccumSum ok64 INV64 0 (fun x => x) add_round) (GatherSum INV64 0 add_round) 0 1 asg1 [[0]] [0] = Some r1 /\
  GroupByScatter INV64 (AccumSum ok64 INV64 0 (fun x => x) add_round) (GatherSum INV64 0 add_round) 0 1 asg2 [[0]; [0]] [0] = Some r2 /\
  ~ agree 0 1 r1 r2.
Proof.
  exists [(0, 16); (0, 1); (0, 1)], [[[(0, 16)]; [(0, 1)]; [(0, 1)]]], [[[(0, 16)]]; [[(0, 1)]; [(0, 1)]]].
  eexists. eexists. split; [apply Permutation_refl|]. split; [apply Permutation_refl|].
  split; [vm_compute; reflexivity|]. split; [vm_compute; reflexivity|].
  intros H. specialize (H 0 ltac:(lia)). vm_compute in H. discriminate.
Qed.
