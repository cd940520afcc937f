(** One call of a function of GroupByAllPack32. *)
From Verif Require Import Base Mem MemLemmas GroupModel GroupSpec GroupProofs AccumSpec GrpxModel GrpxSpec GrpxProofs Grpx2Proofs Grpx3Proofs GrpxFloatProofs Grpx4Proofs AllModel AllSpec HeapModel HeapSpec HeapGrpModel Heap7Proofs PxModel PxSpec PxProofs Px2Proofs.
Local Open Scope Z_scope.

Lemma wrap_mod64 a b : wrapT (CI 8) (wrapT (CI 8) a + wrapT (CI 8) b) = wrapT (CI 8) (a + b) /\ wrapT (CI 8) (wrapT (CI 8) a - wrapT (CI 8) b) = wrapT (CI 8) (a - b).
Proof.
  unfold wrapT. change (2 ^ (8 * 8)) with (2 * 2 ^ (8 * 8 - 1)). set (h := 2 ^ (8 * 8 - 1)). assert (H : 0 < h) by reflexivity. clearbody h.
  pose proof (Z.div_mod (a + h) (2 * h) ltac:(lia)) as Da. pose proof (Z.div_mod (b + h) (2 * h) ltac:(lia)) as Db.
  split; f_equal.
  - replace ((a + h) mod (2 * h) - h + ((b + h) mod (2 * h) - h) + h) with (a + b + h + (- ((a + h) / (2 * h)) - (b + h) / (2 * h)) * (2 * h)) by lia. now rewrite Z.mod_add by lia.
  - replace ((a + h) mod (2 * h) - h - ((b + h) mod (2 * h) - h) + h) with (a - b + h + (- ((a + h) / (2 * h)) + (b + h) / (2 * h)) * (2 * h)) by lia. now rewrite Z.mod_add by lia.
Qed.

Section One.
  Context {F : Type} (A : arith F) (OO : order_is_ok A) (m : xmachine F) (MO : xmachine_ok A m).
  Notation num := (num F).

  Lemma ints_exact n vals : exact_sums (x_conv A (XNum (CI 8))) (x_zero A (XNum (CI 8))) (x_add A (XNum (CI 8))) (x_sub A (XNum (CI 8))) n vals.
  Proof.
    set (M := fold_right (fun v s => Z.abs (zval v) + s) 0 vals).
    assert (M0 : forall l : list num, 0 <= fold_right (fun v s => Z.abs (zval v) + s) 0 l) by (induction l; cbn; lia).
    exists (fun z => I (wrapT (CI 8) z)), zval, M, (Z.of_nat n * M).
    split; [reflexivity|]. split; [lia|]. split; [apply M0|]. split; [|split].
    - intros v Hv. split; [reflexivity|]. unfold M. clear - Hv M0. induction vals as [|x l IH]; [destruct Hv|]. cbn [fold_right]. specialize (M0 l). destruct Hv as [-> | Hv]; [lia|]. specialize (IH Hv). lia.
    - intros a b _ _. cbn [x_add add zval]. f_equal. apply wrap_mod64.
    - intros a b _ _. cbn [x_sub zval]. f_equal. apply wrap_mod64.
  Qed.

  Context (w unique param : Z) (keys : list Z) (vals : list num) (ncount igroup ifirst : list Z).
  Context (lay : layout (unique + 1) keys vals ncount igroup ifirst) (LK : Z.of_nat (length vals) < 2 ^ 63) (W : 0 < w).
  Notation rows := (Z.of_nat (length vals)).
  Notation call func d nm := (x_call A m (mkX nm (in_type func d) (out_type func d)) w param vals igroup ifirst ncount).

  Lemma vals_keys : length keys = length vals.
  Proof. destruct lay as (L & _). auto. Qed.

  (** ** One result per group *)
  Lemma not_text func d : supported func d = true -> ~ In func [100; 101; 102; 203] -> in_type func d <> XText.
  Proof. intros S N E. apply (typed_in func d S) in E as [_ E]. contradiction. Qed.

  Lemma on_groups func d nm : In func [103; 104; 105; 106] -> supported func d = true -> name_of func = Some nm -> values_ok A func d vals -> param_ok rows w func param ->
    exists h, call func d nm = xcall (on_group vals igroup ifirst ncount (x_inv A (out_type func d)) h) /\
      (forall l, incl l vals -> (length l <= length vals)%nat -> exists r, h l = Some r /\ pack_spec A m func d param l r) /\ pack_spec A m func d param [] (x_inv A (out_type func d)).
  Proof.
    destruct MO as (_ & M2 & M3 & _).
    intros HF HS HN HV HP. assert (NT : in_type func d <> XText) by (apply not_text; auto; cbn in *; lia).
    cbn [In] in HF. destruct HF as [<- | [<- | [<- | [<- | []]]]]; injection HN as <-; cbn [values_ok param_ok] in HV, HP; unfold pack_spec; cbv zeta.
    - eexists. split; [reflexivity|]. split; [|reflexivity]. intros l Hi Hl. apply median_ok with (len := length vals); auto.
      + intros. now apply eq_self.
      + now apply sorts_compare.
      + intros a b Ha Hb _ _. apply median_split with vals; auto.
    - eexists. split; [reflexivity|]. split; [|reflexivity]. intros l Hi Hl. apply mode_ok with (len := length vals); auto.
      + intros. now apply eq_self.
      + now apply sorts_compare.
      + now apply order_num.
      + now apply eq_right.
    - eexists. split; [reflexivity|]. split; [|reflexivity]. intros l Hi Hl. apply trimmean_exact; auto.
      + now apply order_valid.
      + now apply le_right.
      + intros k k' P I L. apply (trim_perm A (S (length vals)) (filter (x_ok A (in_type 105 d)) vals)); auto; [|lia].
        intros x Hx. apply I in Hx. apply filter_In in Hx as [Hx Ho]. apply filter_In. auto.
    - destruct HP as [HP HB].
      assert (Q : 0 <= quantile_p param <= 10 ^ 9) by (unfold quantile_p, nan_quantile; destruct (Z.ltb_spec (10 ^ 9) param); lia).
      assert (EQ : quantile_p param = if 10 ^ 9 <? param then param - 10 ^ 9 - 1 else param) by (unfold quantile_p, nan_quantile; destruct (10 ^ 9 <? param); lia).
      rewrite <- EQ. exists (GrpxModel.quantile_of (x_inv A (out_type 106 d)) (x_conv A (out_type 106 d)) (x_ok A (in_type 106 d)) (x_lt A (in_type 106 d)) (x_nth m (x_lt A (in_type 106 d)))
        (QUANTILE_SPLIT A (in_type 106 d)) (nan_quantile param) (q_down (quantile_p param)) (q_up (quantile_p param))).
      split; [reflexivity|]. split; [|unfold quantile_spec; cbn; now rewrite andb_false_r]. intros l Hi Hl. apply quantile_ok; auto.
      + now apply order_valid.
      + intros a b Ha Hb Oa Ob. apply quantile_split with (filter (x_ok A (in_type 106 d)) vals); auto; apply filter_In; auto.
      + intros k Hk. destruct (q_bounds (quantile_p param) k Q ltac:(lia) ltac:(lia)) as (B1 & B2 & B3). lia.
  Qed.

  Lemma groups_call func d nm low high out0 : In func per_group -> supported func d = true -> name_of func = Some nm -> values_ok A func d vals -> param_ok rows w func param ->
    0 <= low <= high -> high <= unique + 1 -> Z.of_nat (length out0) = unique + 1 ->
    exists res, GroupByX (call func d nm) low high out0 = Some res /\ length res = length out0 /\ reduced (pack_spec A m func d param) low high (combine keys vals) res.
  Proof.
    destruct MO as (M1 & _). intros HF HS HN HV HP Hl Hh Lo. symmetry in Lo.
    assert (P1 : forall P f, (exists res, GroupByAllPack32 (x_ord m) false false 0 0 f low high (unique + 1) out0 = Some res /\ per_bin P low high keys vals out0 res) ->
      exists res, GroupByX f low high out0 = Some res /\ length res = length out0 /\ reduced P low high (combine keys vals) res).
    { clear. intros P f (res & E & L & R & _). exists res. auto. }
    cbn [per_group In] in HF. destruct HF as [<- | [<- | [<- | HF]]].
    - injection HN as <-. apply P1. now apply call_first.
    - injection HN as <-. apply P1. now apply call_nth.
    - injection HN as <-. apply P1. now apply call_last.
    - destruct (on_groups func d nm HF HS HN HV HP) as (h & -> & Hh' & Pe).
      destruct (group_call (unique + 1) keys vals ncount igroup ifirst (x_inv A (out_type func d)) (fun x => x) lay (x_ord m) false 0 0 low high out0 M1 Hl Hh Lo h (pack_spec A m func d param) Hh' Pe)
        as (res & sq & _ & E & _ & _ & _ & L & R & _). exists sq. auto.
  Qed.
  Lemma banded_call func d nm low high out0 cores : In func [103; 104; 105; 106] -> supported func d = true -> name_of func = Some nm -> values_ok A func d vals -> param_ok rows w func param ->
    0 <= low <= high -> high <= unique + 1 -> Z.of_nat (length out0) = unique + 1 -> 0 < cores ->
    exists res, BandedGroupBy (x_ord m) (call func d nm) cores (unique + 1) out0 = Some res /\ length res = length out0 /\ reduced (pack_spec A m func d param) low high (combine keys vals) res.
  Proof.
    destruct MO as (M1 & _). intros HF HS HN HV HP Hl Hh Lo Hc. symmetry in Lo.
    destruct (on_groups func d nm HF HS HN HV HP) as (h & -> & Hh' & Pe).
    rewrite (band_call (unique + 1) keys vals ncount igroup ifirst (x_inv A (out_type func d)) (fun x => x) lay (x_ord m) out0 M1 Lo h (pack_spec A m func d param) cores Hc Hh').
    destruct (group_call (unique + 1) keys vals ncount igroup ifirst (x_inv A (out_type func d)) (fun x => x) lay (x_ord m) false 0 0 0 (unique + 1) out0 M1 ltac:(lia) ltac:(lia) Lo h (pack_spec A m func d param) Hh' Pe)
      as (res & sq & _ & E & _ & _ & _ & L & R & _). exists sq. split; auto. split; auto. intros g Hg. apply R. lia.
  Qed.

  (** ** One result per row *)
  Lemma per_row_wise P inv low high out0 res : per_row inv P low high keys vals out0 res -> length res = length out0 /\ rowwise P inv low high keys vals res.
  Proof. intros (L & H). split; auto. intros g k r Hk. destruct (H g k r Hk) as (H1 & H2 & _). auto. Qed.
  Lemma rowwise_imp (P P' : list num -> nat -> num -> Prop) inv low high res : (forall g k u, P (group_vals (combine keys vals) g) k u -> P' (group_vals (combine keys vals) g) k u) ->
    rowwise P inv low high keys vals res -> rowwise P' inv low high keys vals res.
  Proof. intros HP H g k r Hk. destruct (H g k r Hk) as [H1 H2]. split; auto. intros Hg Hn. destruct (H1 Hg Hn) as (u & E & Q). eauto. Qed.

  Lemma exact_sum_call f kern P low high out0 inv : 0 <= param ->
    0 < unique + 1 -> 0 <= low <= high -> high <= unique + 1 -> length out0 = length keys ->
    f = roll_call igroup ifirst ncount inv (param <? 0) kern ->
    (forall g, 0 < g < unique + 1 -> exists ws, kern g = Some ws /\ row_ok keys (P (group_vals (combine keys vals) g)) g ws) ->
    exists res, GroupByX f low high out0 = Some res /\ length res = length out0 /\ rowwise P inv low high keys vals res.
  Proof.
    intros Hp Hu Hl Hh Lo -> H. rewrite (proj2 (Z.ltb_ge param 0)) by lia.
    destruct (roll_call_ok (unique + 1) keys vals ncount igroup ifirst inv lay kern P low high out0) as (res & E & R); auto.
    exists res. split; auto. eapply per_row_wise; eauto.
  Qed.
  Lemma out_int func d : In func [200; 201] -> floating d = false -> out_type func d = XNum (CI 8).
  Proof. intros HF E. cbn [In] in HF. unfold out_type. destruct HF as [<- | [<- | []]]; cbn [pack_dtype]; rewrite E; reflexivity. Qed.
  Lemma filter_true (l : list num) : filter (fun _ => true) l = l.
  Proof. induction l; cbn; congruence. Qed.

  Lemma sums_call func d (ok : num -> bool) low high out0 : In func [200; 201] -> (floating d = true -> exact_sums (x_conv A (out_type func d)) (x_zero A (out_type func d)) (x_add A (out_type func d)) (x_sub A (out_type func d)) (S (length vals)) (filter ok vals)) ->
    0 <= param -> rows + param < 2 ^ (w - 1) -> 0 < unique + 1 -> 0 <= low <= high -> high <= unique + 1 -> length out0 = length keys ->
    exists res, GroupByX (AccumRollingNanSum w vals igroup ifirst ncount (x_inv A (out_type func d)) (x_conv A (out_type func d)) (x_zero A (out_type func d)) (x_add A (out_type func d)) (x_sub A (out_type func d)) ok param) low high out0 = Some res /\
      length res = length out0 /\ rowwise (rnansum_spec (x_conv A (out_type func d)) (x_zero A (out_type func d)) (x_add A (out_type func d)) ok param) (x_inv A (out_type func d)) low high keys vals res.
  Proof.
    intros HF HV Hp Hb Hu Hl Hh Lo.
    assert (EX : exact_sums (x_conv A (out_type func d)) (x_zero A (out_type func d)) (x_add A (out_type func d)) (x_sub A (out_type func d)) (S (length vals)) (filter ok vals)).
    { destruct (floating d) eqn:E; [auto|]. rewrite (out_int func d HF E). apply ints_exact. }
    clear HV. destruct EX as (e & zc & M & B & E0 & Hn & M0 & EX & EA & ES).
    eapply exact_sum_call; auto; [reflexivity|]. intros g Hg.
    refine (exact_nansum w (unique + 1) keys vals ncount igroup ifirst (I 0) _ lay _ _ _ (fun x _ => x) ok param e zc M B E0 Hn M0 EA ES EX W Hp _ g Hg). rewrite vals_keys. lia.
  Qed.

  Lemma quantile_of_imp {T U} (less : T -> T -> bool) valid (uinv : U) conv split split' index integral l u :
    (forall a b, In a l -> In b l -> valid a = true -> valid b = true -> split a b = split' a b) ->
    HeapSpec.quantile_of less valid uinv conv split index integral l u -> HeapSpec.quantile_of less valid uinv conv split' index integral l u.
  Proof.
    intros HS. unfold HeapSpec.quantile_of. cbv zeta. destruct (Nat.eqb (length (filter valid l)) 0); auto. intros (s & Hs & H). exists s. split; auto.
    destruct (integral (length (filter valid l))); auto. destruct H as (a & b & Ha & Hb & ->). exists a, b. split; auto. split; auto.
    destruct Hs as [P _].
    assert (Ia : forall z n, nth_error s n = Some z -> In z l /\ valid z = true).
    { intros z n Hz. apply nth_error_In in Hz. apply (Permutation_in _ (Permutation_sym P)) in Hz. now apply filter_In in Hz. }
    destruct (Ia _ _ Ha). destruct (Ia _ _ Hb). now apply HS.
  Qed.
  Lemma window_incl {T} win k (l : list T) : incl (window win k l) l.
  Proof.
    intros x Hx. unfold window in Hx. apply In_nth_error in Hx as [i Hi].
    assert (S' : forall (n : nat) (l0 : list T) i x, nth_error (skipn n l0) i = Some x -> In x l0).
    { clear. induction n as [|n IH]; intros [|y l0] i x H; cbn [skipn] in H; try (now apply nth_error_In in H). right. eauto. }
    assert (F' : forall (n : nat) (l0 : list T) x, In x (firstn n l0) -> In x l0).
    { clear. induction n as [|n IH]; intros [|y l0] x H; cbn in *; try tauto. destruct H; auto. }
    apply S' in Hi. eapply F'; eauto.
  Qed.
  Lemma vals_incl g : incl (group_vals (combine keys vals) g) vals.
  Proof. intros x Hx. unfold group_vals in Hx. apply in_map_iff in Hx as ([k y] & <- & H). apply filter_In in H as [H _]. eapply in_combine_r; eauto. Qed.

  Lemma rows_call func d nm low high out0 : In func rolling -> supported func d = true -> name_of func = Some nm -> values_ok A func d vals -> param_ok rows w func param ->
    0 < unique + 1 -> 0 <= low <= high -> high <= unique + 1 -> length out0 = length vals ->
    exists res, GroupByX (call func d nm) low high out0 = Some res /\ length res = length out0 /\ rowwise (roll_spec A func d param) (x_inv A (out_type func d)) low high keys vals res.
  Proof.
    intros HF HS HN HV HP Hu Hl Hh Lo. rewrite <- vals_keys in Lo.
    assert (PW : forall P f inv, (exists res, GroupByX f low high out0 = Some res /\ per_row inv P low high keys vals out0 res) ->
      exists res, GroupByX f low high out0 = Some res /\ length res = length out0 /\ rowwise P inv low high keys vals res).
    { intros P f inv (res & E & R). exists res. split; auto. eapply per_row_wise; eauto. }
    cbn [rolling In] in HF. destruct HF as [<- | [<- | [<- | [<- | [<- | [<- | [<- | [<- | []]]]]]]]]; injection HN as <-; cbn [values_ok param_ok] in HV, HP.
    - destruct HP as [Hp Hb]. destruct (sums_call 200 d (fun _ => true) low high out0) as (res & E & L & R); auto; [cbn; auto|now rewrite filter_true|].
      exists res. split; [exact E|]. split; auto. eapply rowwise_imp; [|exact R]. intros g k u. unfold rnansum_spec. rewrite filter_true. auto.
    - destruct HP as [Hp Hb]. apply (sums_call 201 d (x_ok A (in_type 201 d))); auto. cbn; auto.
    - apply PW. refine (call_rdiff w (unique + 1) keys vals ncount igroup ifirst _ _ (I 0) _ (fun x _ => x) (fun _ => true) param low high out0 lay Hu Hl Hh Lo W _). now rewrite vals_keys.
    - apply PW. refine (call_rshift w (unique + 1) keys vals ncount igroup ifirst _ _ (I 0) (fun x _ => x) (fun _ => true) param low high out0 lay Hu Hl Hh Lo W _). now rewrite vals_keys.
    - apply PW. exact (call_rcount (unique + 1) keys vals ncount igroup ifirst _ (I 0) (fun x _ => x) param low high out0 lay Hu Hl Hh Lo (fun z => I (wrapT (CI 4) z))).
    - destruct HP as [Hp Hb]. destruct HV as (e & zc & M & B & E0 & Hn & M0 & EX & EA & ES). eapply exact_sum_call; auto; [reflexivity|].
      intros g Hg. assert (EX' : exact_on (x_conv A (out_type 205 d)) e zc M (filter (fun _ => true) vals)) by (rewrite filter_true; exact EX).
      refine (exact_mean w (unique + 1) keys vals ncount igroup ifirst (I 0) _ lay _ _ _ _ (fun _ => true) param e zc M B E0 Hn M0 EA ES EX' W Hp _ g (fun _ => eq_refl) Hg). rewrite vals_keys. lia.
    - destruct HP as [Hp Hb]. destruct HV as (e & zc & M & B & E0 & Hn & M0 & EX & EA & ES). eapply exact_sum_call; auto; [reflexivity|].
      intros g Hg. refine (exact_nanmean w (unique + 1) keys vals ncount igroup ifirst _ _ lay _ _ _ _ _ param e zc M B E0 Hn M0 EA ES EX W Hp _ g Hg). rewrite vals_keys. lia.
    - destruct MO as (_ & _ & _ & ML).
      assert (NT : in_type 207 d <> XText) by (apply not_text; auto; cbn; lia).
      pose proof (Z.div_mod param (MULT + 1) ltac:(unfold MULT; lia)) as DM. pose proof (Z.mod_pos_bound param (MULT + 1) ltac:(unfold MULT; lia)) as MB.
      assert (WP : 0 < param / (MULT + 1)) by (assert (MULT = 10 ^ 9) by reflexivity; nia).
      destruct (group_quantile_ok (unique + 1) keys vals ncount igroup ifirst (x_lt A (in_type 207 d)) (x_ok A (in_type 207 d)) (x_inv A (out_type 207 d)) (x_conv A (out_type 207 d)) (roll_split A m (in_type 207 d))
        lay (order_valid A OO _) (x_left m (param / (MULT + 1))) (param mod (MULT + 1)) (param / (MULT + 1)) low high out0 Hu Hl Hh Lo ltac:(lia) WP (ML _)) as (res & E & R).
      exists res. split.
      + rewrite <- E. unfold x_call. cbn [x_name x_T x_U]. rewrite Z.quot_div_nonneg by (unfold MULT in *; lia). do 2 f_equal. lia.
      + apply per_row_wise in R as [L R]. split; auto. eapply rowwise_imp; [|exact R]. intros g k u. unfold roll_spec, quantile_row. cbv zeta. apply quantile_of_imp.
        intros a b Ha Hb Oa Ob. unfold roll_split. rewrite (quantile_split A (in_type 207 d) (filter (x_ok A (in_type 207 d)) vals) a b); auto.
        * apply filter_In. split; auto. now apply vals_incl with g, window_incl with (param / (MULT + 1)) k.
        * apply filter_In. split; auto. now apply vals_incl with g, window_incl with (param / (MULT + 1)) k.
  Qed.
End One.
