(** Sums over blocks and cores. *)
From Verif Require Import Base RedModel RedSpec RedProofs.
From Coq Require Import Permutation Lia.
Local Open Scope Z_scope.

Lemma wrap64_id z : - 2 ^ 63 <= z < 2 ^ 63 -> wrap64 z = z.
Proof. intros H. unfold wrap64. rewrite Z.mod_small; lia. Qed.

(** * Without NaN *)
Section sums.
Context (A : dops) (S : list (car A) -> car A) (small : list (car A) -> Prop) (isI : list (car A) -> Z -> Prop).
Hypothesis S_nil : S [] = zero A.
Hypothesis S_one : forall x, small [x] -> S [x] = x.
Hypothesis S_app : forall a b, small (a ++ b) -> plus A (S a) (S b) = S (a ++ b).
Hypothesis S_perm : forall a b, Permutation a b -> S a = S b.
Hypothesis small_nil : small [].
Hypothesis small_perm : forall a b, Permutation a b -> small a -> small b.
Hypothesis small_l : forall a b, small (a ++ b) -> small a.
Hypothesis nonan : forall d, small d -> isnan A (S d) = false.

Lemma small_r a b : small (a ++ b) -> small b.
Proof. intros H. apply (small_l b a). revert H. apply small_perm, Permutation_app_comm. Qed.

Lemma agg_S d r : agg (fun op => op = plus A) (Some (zero A)) d r -> small d -> r = S d.
Proof.
  induction 1 as [z E|x|op l1 l2 l a b O H1 IH1 H2 IH2 P]; intros SM.
  - injection E as <-. now rewrite S_nil.
  - now rewrite S_one.
  - subst op. apply (small_perm _ _ P) in SM. rewrite IH1 by (eapply small_l; eassumption).
    rewrite IH2 by (eapply small_r; eassumption). rewrite S_app by assumption. symmetry. now apply S_perm.
Qed.

Lemma fold_S d : small d -> fold_left (plus A) d (zero A) = S d.
Proof.
  intros SM. apply agg_S; [|exact SM].
  apply (agg_fold (fun op => op = plus A) (Some (zero A)) (plus A) d eq_refl []). now constructor.
Qed.

Hypothesis I_nil : isI [] 0.
Hypothesis I_app : forall a b x y, isI a x -> isI b y -> small (a ++ b) -> isI (a ++ b) (x + y).
Hypothesis I_perm : forall a b z, Permutation a b -> isI a z -> isI b z.
Hypothesis I_range : forall d z, small d -> isI d z -> - 2 ^ 63 < z < 2 ^ 63.

(** the state after the values [d] *)
Definition holds (d : list (car A)) (s : sg A) : Prop :=
  lenOut s = Z.of_nat (length d) /\ resultOut s = S d /\ isI d (resultInt s).
Lemma holds_0 : holds [] (sg0 A).
Proof. unfold holds, sg0. cbn. repeat split; auto. Qed.
Lemma holds_perm a b s : Permutation a b -> holds a s -> holds b s.
Proof.
  intros P (H1 & H2 & H3). split; [|split].
  - rewrite <- (Permutation_length P). assumption.
  - rewrite <- (S_perm _ _ P). assumption.
  - eapply I_perm; eassumption.
Qed.

(** a kernel that adds the values [vals b] of the block [b] *)
Definition adds {V} (vals : list V -> list (car A)) (k : list V -> sg A -> sg A) (b : list V) : Prop :=
  forall d s, holds d s -> small (d ++ vals b) -> holds (d ++ vals b) (k b s).

Lemma add_d_S a b : small (a ++ b) -> add_d A (S a) (S b) = S (a ++ b).
Proof.
  intros H. unfold add_d. rewrite (nonan a) by (eapply small_l; eassumption). rewrite (nonan b) by (eapply small_r; eassumption).
  cbn. now apply S_app.
Qed.
Lemma wrap_I a b x y : isI a x -> isI b y -> small (a ++ b) -> wrap64 (x + y) = x + y.
Proof. intros H1 H2 H3. apply wrap64_id. pose proof (I_range _ _ H3 (I_app _ _ _ _ H1 H2 H3)). lia. Qed.
Lemma add_i_I a b x y : isI a x -> isI b y -> small (a ++ b) -> add_i x y = x + y.
Proof.
  intros H1 H2 H3. unfold add_i, INT64_MIN.
  pose proof (I_range _ _ (small_l _ _ H3) H1). pose proof (I_range _ _ (small_r _ _ H3) H2).
  destruct (Z.eqb_spec x (- 2 ^ 63)); [lia|]. destruct (Z.eqb_spec y (- 2 ^ 63)); [lia|]. cbn [orb].
  eapply wrap_I; eassumption.
Qed.

Lemma adds_var32 {V} (f : V -> car A) l : (forall a b z, isI a z -> isI (a ++ b) z) -> adds (map f) (VarF32 A f) l.
Proof.
  intros K d s (H1 & H2 & H3) SM.
  destruct (var_sum_agg A f l s) as (r & G & ->).
  assert (SR : small (map f l)) by (eapply small_r; eassumption).
  rewrite (agg_S _ _ G SR), H2, S_app by assumption.
  split; [|split]; cbn [lenOut resultOut resultInt].
  - rewrite H1, app_length, map_length. lia.
  - reflexivity.
  - now apply K.
Qed.

Lemma blocks_ok {V} vals (k : list V -> sg A -> sg A) bs : (forall b, In b bs -> adds vals k b) -> forall d s, holds d s ->
  small (d ++ concat (map vals bs)) -> holds (d ++ concat (map vals bs)) (fold_left (fun c b => k b c) bs s).
Proof.
  induction bs as [|b bs IH]; intros K d s H SM; cbn [map concat fold_left] in *.
  - now rewrite app_nil_r.
  - rewrite app_assoc in *. apply IH; [intros x X; apply K; now right| |assumption].
    apply K; [now left|assumption|]. eapply small_l; eassumption.
Qed.
Lemma gather_ok a b s c : holds a s -> holds b c -> small (a ++ b) -> holds (a ++ b) (gather_sum A s c).
Proof.
  intros (H1 & H2 & H3) (C1 & C2 & C3) SM. unfold gather_sum. cbv zeta.
  rewrite H2, C2, add_d_S by assumption. rewrite nonan by assumption.
  rewrite (add_i_I a b) by assumption.
  pose proof (I_range _ _ SM (I_app _ _ _ _ H3 C3 SM)). unfold INT64_MIN.
  destruct (Z.eqb_spec (resultInt s + resultInt c) (- 2 ^ 63)); [lia|].
  split; [|split]; cbn [lenOut resultOut resultInt].
  - rewrite H1, C1, app_length. lia.
  - reflexivity.
  - now apply I_app.
Qed.
Lemma cores_ok {V} vals (k : list V -> sg A -> sg A) sch : (forall c b, In c sch -> In b c -> adds vals k b) -> forall d s, holds d s ->
  small (d ++ concat (map (fun c => concat (map vals c)) sch)) ->
  holds (d ++ concat (map (fun c => concat (map vals c)) sch))
    (fold_left (gather_sum A) (map (fun blocks => fold_left (fun c b => k b c) blocks (sg0 A)) sch) s).
Proof.
  induction sch as [|c sch IH]; intros K d s H SM; cbn [map concat fold_left] in *.
  - now rewrite app_nil_r.
  - rewrite app_assoc in *. apply IH; [intros c' b C; apply K; now right| |assumption].
    assert (SD : small (d ++ concat (map vals c))) by (eapply small_l; eassumption).
    apply gather_ok; [assumption| |assumption].
    apply (blocks_ok vals k c (fun b B => K c b (or_introl eq_refl) B) [] (sg0 A) holds_0).
    cbn [app]. eapply small_r; eassumption.
Qed.
Lemma WorkSum_ok {V} vals (k : list V -> sg A -> sg A) nt sch l :
  (forall a b, vals (a ++ b) = vals a ++ vals b) -> vals [] = [] -> (forall a b, Permutation a b -> Permutation (vals a) (vals b)) ->
  splits l sch -> (forall b, incl b l -> adds vals k b) -> small (vals l) -> holds (vals l) (WorkSum A k nt sch l (sg0 A)).
Proof.
  intros VA VN VP (P & _) K SM. unfold WorkSum. destruct (threaded nt l) eqn:T.
  - assert (C1 : forall bs, concat (map vals bs) = vals (concat bs)).
    { induction bs as [|b bs IH]; cbn; [now rewrite VN|]. now rewrite VA, IH. }
    assert (C : concat (map (fun c => concat (map vals c)) sch) = vals (concat (map (@concat V) sch))).
    { rewrite <- C1, map_map. f_equal. apply map_ext. intros c. apply C1. }
    pose proof (VP _ _ P) as P'.
    apply (holds_perm _ _ _ P'). rewrite <- C. apply (cores_ok vals k sch) with (d := []).
    + intros c b IC IB. apply K. intros x X. apply (Permutation_in x P). apply in_concat. exists (concat c). split.
      * apply in_map_iff. now exists c.
      * apply in_concat. now exists b.
    + apply holds_0.
    + cbn [app]. rewrite C. eapply small_perm; [|exact SM]. now symmetry.
  - apply (K l (incl_refl l) [] (sg0 A) holds_0). assumption.
Qed.
Hypothesis I_toI : forall d, small d -> isI d (toI A (S d)).
Lemma slow_sum_fold {V} valid (f : V -> car A) l : (forall x, In x l -> valid x = true) -> forall acc,
  slow_sum A valid f l acc = fold_left (plus A) (map f l) acc.
Proof.
  induction l as [|x l IH]; intros H acc; cbn; [reflexivity|]. rewrite (H x) by now left. apply IH. intros y Y. apply H. now right.
Qed.

Lemma adds_slow {V} valid (f : V -> car A) l : (forall x, In x l -> valid x = true) -> adds (map f) (AddSlow A valid f) l.
Proof.
  intros H d s (H1 & H2 & H3) SM. unfold AddSlow. cbv zeta.
  rewrite slow_sum_fold by assumption. rewrite fold_S by (eapply small_r; eassumption). rewrite H2, add_d_S by assumption.
  split; [|split]; cbn [lenOut resultOut resultInt].
  - rewrite H1, app_length, map_length. lia.
  - reflexivity.
  - unfold cast_i64. rewrite nonan by assumption. now apply I_toI.
Qed.
Lemma adds_float {V} (f : V -> car A) l : adds (map f) (AddFloat A f) l.
Proof.
  intros d s (H1 & H2 & H3) SM. unfold AddFloat. cbv zeta.
  assert (SR : small (map f l)) by (eapply small_r; eassumption).
  rewrite (agg_S _ _ (vec_sum_agg A f l) SR), H2, S_app by assumption.
  split; [|split]; cbn [lenOut resultOut resultInt].
  - rewrite H1, app_length, map_length. lia.
  - reflexivity.
  - rewrite (wrap_I d (map f l)); auto.
Qed.
Lemma adds_i32 {V} valid (f : V -> car A) l : (forall x, In x l -> valid x = true) -> adds (map f) (AddI32 A valid f) l.
Proof.
  intros H d s (H1 & H2 & H3) SM. unfold AddI32.
  destruct (existsb (fun x => negb (valid x)) l) eqn:E.
  { apply existsb_exists in E as (x & I & N). rewrite H in N by assumption. discriminate. }
  cbv zeta. assert (SR : small (map f l)) by (eapply small_r; eassumption).
  rewrite (agg_S _ _ (vec_sum_agg A f l) SR), H2, add_d_S by assumption.
  split; [|split]; cbn [lenOut resultOut resultInt].
  - rewrite H1, app_length, map_length. lia.
  - reflexivity.
  - rewrite (add_i_I d (map f l)); auto.
Qed.
Lemma adds_nan {V} valid (f : V -> car A) l : adds (fun b => map f (filter valid b)) (NanSum A valid f) l.
Proof.
  intros d s (H1 & H2 & H3) SM. unfold NanSum. cbv zeta.
  assert (SR : small (map f (filter valid l))) by (eapply small_r; eassumption).
  assert (E : forall v acc, fold_left (fun acc x => plus A acc (f x)) v acc = fold_left (plus A) (map f v) acc).
  { induction v; intros acc; cbn; auto. }
  rewrite E, fold_S, H2, S_app by assumption.
  split; [|split]; cbn [lenOut resultOut resultInt].
  - rewrite H1, app_length, map_length. lia.
  - reflexivity.
  - rewrite (wrap_I d (map f (filter valid l))); auto.
Qed.
End sums.

(** * With an invalid value *)
Section bad.
Context {V : Type} (A : dops) (bad : sg A -> Prop) (k : list V -> sg A -> sg A) (poison : V -> Prop).
Hypothesis k_keep : forall b s, bad s -> bad (k b s).
Hypothesis k_make : forall b s, (exists x, In x b /\ poison x) -> bad (k b s).
Hypothesis g_l : forall s c, bad s -> bad (gather_sum A s c).
Hypothesis g_r : forall s c, bad c -> bad (gather_sum A s c).
Lemma blocks_keep bs : forall s, bad s -> bad (fold_left (fun c b => k b c) bs s).
Proof. induction bs; intros s H; cbn; auto. Qed.
Lemma blocks_bad bs : (exists x, In x (concat bs) /\ poison x) -> forall s, bad (fold_left (fun c b => k b c) bs s).
Proof.
  induction bs as [|b bs IH]; intros (x & I & P) s; cbn in *; [contradiction|].
  apply in_app_or in I as [I|I]; [apply blocks_keep; eauto|apply IH; eauto].
Qed.
Lemma gather_keep cs : forall s, bad s -> bad (fold_left (gather_sum A) cs s).
Proof. induction cs; intros s H; cbn; auto. Qed.
Lemma WorkSum_bad nt sch l s : splits l sch -> (exists x, In x l /\ poison x) -> bad (WorkSum A k nt sch l s).
Proof.
  intros (P & _) (x & I & Px). unfold WorkSum. destruct (threaded nt l); [|apply k_make; eauto].
  apply (Permutation_in _ (Permutation_sym P)) in I. clear P. revert s.
  induction sch as [|c sch IH]; intros s; cbn in *; [contradiction|].
  apply in_app_or in I as [I|I]; [|now apply IH].
  apply gather_keep, g_r, blocks_bad. eauto.
Qed.
End bad.

(** the number of elements does not depend on what they are *)
Lemma WorkSum_len {V} (A : dops) (k : list V -> sg A -> sg A) (cnt : list V -> Z) nt sch l :
  (forall b s, lenOut (k b s) = lenOut s + cnt b) -> (forall a b, cnt (a ++ b) = cnt a + cnt b) -> cnt [] = 0 ->
  (forall a b, Permutation a b -> cnt a = cnt b) -> splits l sch -> lenOut (WorkSum A k nt sch l (sg0 A)) = cnt l.
Proof.
  intros K CA C0 CP (P & _). unfold WorkSum. destruct (threaded nt l); [|now rewrite K].
  rewrite <- (CP _ _ P). clear P.
  assert (B : forall bs s, lenOut (fold_left (fun c b => k b c) bs s) = lenOut s + cnt (concat bs)).
  { induction bs as [|b bs IH]; intros s; cbn [fold_left concat]; [rewrite C0; lia|]. rewrite IH, K, CA. lia. }
  assert (G : forall s c, lenOut (gather_sum A s c) = lenOut s + lenOut c).
  { intros s c. unfold gather_sum. cbv zeta. destruct (isnan _ _); [reflexivity|]. destruct (_ =? _); reflexivity. }
  enough (H : forall s, lenOut (fold_left (gather_sum A) (map (fun blocks => fold_left (fun c b => k b c) blocks (sg0 A)) sch) s) = lenOut s + cnt (concat (map (@concat V) sch))) by apply H.
  induction sch as [|c sch IH]; intros s; cbn [map concat fold_left]; [rewrite C0; lia|].
  rewrite IH, G, B, CA. cbn [lenOut sg0]. lia.
Qed.
