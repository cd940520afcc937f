(** Sums of integers and of floats. *)
From Verif Require Import Base RedModel RedSpec RedProofs Red2Proofs.
From Coq Require Import Permutation Lia Reals Lra.
Local Open Scope Z_scope.

Lemma Zsum_app a b : Zsum (a ++ b) = Zsum a + Zsum b.
Proof. induction a; cbn; [reflexivity|]. fold (Zsum (a0 ++ b)). rewrite IHa. fold (Zsum a0). lia. Qed.
Lemma Zsum_perm a b : Permutation a b -> Zsum a = Zsum b.
Proof. induction 1; cbn in *; try fold (Zsum l) in *; try fold (Zsum l') in *; lia. Qed.
Lemma Zabs_sum_app a b : Zabs_sum (a ++ b) = Zabs_sum a + Zabs_sum b.
Proof. unfold Zabs_sum. now rewrite map_app, Zsum_app. Qed.
Lemma Zabs_sum_perm a b : Permutation a b -> Zabs_sum a = Zabs_sum b.
Proof. intros P. apply Zsum_perm. now apply Permutation_map. Qed.
Lemma Zabs_sum_nonneg a : 0 <= Zabs_sum a.
Proof. unfold Zabs_sum. induction a as [|x a IH]; cbn; [lia|]. fold (Zsum (map Z.abs a)). lia. Qed.
Lemma Zabs_le a : Z.abs (Zsum a) <= Zabs_sum a.
Proof. unfold Zabs_sum. induction a as [|x a IH]; cbn; [lia|]. fold (Zsum a) (Zsum (map Z.abs a)). lia. Qed.
Lemma Zabs_in x a : In x a -> Z.abs x <= Zabs_sum a.
Proof.
  intros I. apply in_split in I as (p & q & ->). rewrite Zabs_sum_app. pose proof (Zabs_sum_nonneg p).
  pose proof (Zabs_sum_nonneg q). unfold Zabs_sum in *. cbn. fold (Zsum (map Z.abs q)). lia.
Qed.

Lemma rnd_id z : Z.abs z <= 2 ^ 53 -> rnd z = z.
Proof. intros H. unfold rnd. destruct (Z.leb_spec (Z.abs z) (2 ^ 53)); [reflexivity|lia]. Qed.

(** * Integers *)
Definition SI (d : list (option Z)) : option Z :=
  fold_right (fun a b => match a, b with Some x, Some y => Some (x + y) | _, _ => None end) (Some 0) d.
Definition smallI (d : list (option Z)) : Prop := exists zs, d = map Some zs /\ Zabs_sum zs <= 2 ^ 53.
Definition isII (d : list (option Z)) (z : Z) : Prop := SI d = Some z.
Lemma SI_some zs : SI (map Some zs) = Some (Zsum zs).
Proof. induction zs as [|z zs IH]; [reflexivity|]. cbn [map]. unfold SI in *. cbn [fold_right]. rewrite IH. reflexivity. Qed.
Lemma SI_perm a b : Permutation a b -> SI a = SI b.
Proof.
  induction 1; unfold SI in *; cbn [fold_right]; [reflexivity|now rewrite IHPermutation| |congruence].
  match goal with |- context [fold_right ?g ?e l] => generalize (fold_right g e l) end.
  intros o. destruct x as [x|], y as [y|], o as [z|]; try reflexivity. f_equal. lia.
Qed.
Lemma smallI_split a b : smallI (a ++ b) -> exists x y, a = map Some x /\ b = map Some y /\ Zabs_sum (x ++ y) <= 2 ^ 53.
Proof.
  intros (zs & E & B). symmetry in E. apply map_eq_app in E as (x & y & -> & <- & <-). exists x, y. auto.
Qed.
Lemma intS_one x : smallI [x] -> SI [x] = x.
Proof. intros (zs & E & _). destruct x; [|destruct zs; discriminate]. unfold SI. cbn. now rewrite Z.add_0_r. Qed.
Lemma intS_app a b : smallI (a ++ b) -> plus IntD (SI a) (SI b) = SI (a ++ b).
Proof.
  intros H. apply smallI_split in H as (x & y & -> & -> & B). rewrite <- map_app, !SI_some. cbn.
  pose proof (Zabs_le (x ++ y)). rewrite Zsum_app in *. rewrite rnd_id; [reflexivity|lia].
Qed.
Lemma small_permI a b : Permutation a b -> smallI a -> smallI b.
Proof.
  intros P (zs & -> & B). apply Permutation_sym, Permutation_map_inv in P as (ys & -> & Q). exists ys. split; [reflexivity|].
  rewrite <- (Zabs_sum_perm _ _ Q). assumption.
Qed.
Lemma small_lI a b : smallI (a ++ b) -> smallI a.
Proof.
  intros H. apply smallI_split in H as (x & y & -> & -> & B). exists x. split; [reflexivity|].
  rewrite Zabs_sum_app in B. pose proof (Zabs_sum_nonneg y). lia.
Qed.
Lemma nonanI d : smallI d -> isnan IntD (SI d) = false.
Proof. intros (zs & -> & _). now rewrite SI_some. Qed.
Lemma toII d : smallI d -> isII d (toI IntD (SI d)).
Proof.
  intros (zs & -> & B). unfold isII. rewrite SI_some. cbn [toI IntD]. pose proof (Zabs_le zs).
  unfold inI64. destruct (Z.leb_spec (- 2 ^ 63) (Zsum zs)); [|lia]. destruct (Z.ltb_spec (Zsum zs) (2 ^ 63)); [reflexivity|lia].
Qed.
Lemma appII a b x y : isII a x -> isII b y -> smallI (a ++ b) -> isII (a ++ b) (x + y).
Proof.
  intros H1 H2 H. apply smallI_split in H as (u & v & -> & -> & B). unfold isII in *. rewrite <- map_app. rewrite SI_some in *.
  rewrite Zsum_app. congruence.
Qed.
Lemma rangeII d z : smallI d -> isII d z -> - 2 ^ 63 < z < 2 ^ 63.
Proof. intros (zs & -> & B) H. unfold isII in H. rewrite SI_some in H. injection H as <-. pose proof (Zabs_le zs). lia. Qed.

Lemma permII a b z : Permutation a b -> isII a z -> isII b z.
Proof. intros P H. unfold isII in *. now rewrite <- (SI_perm _ _ P). Qed.
Ltac addsI L := apply (L IntD SI smallI isII eq_refl intS_one intS_app SI_perm small_permI small_lI nonanI appII permII rangeII toII).

Lemma toD_small l : Zabs_sum l <= 2 ^ 53 -> map toD l = map Some l.
Proof.
  intros B. apply map_ext_in. intros x I. unfold toD. rewrite rnd_id; [reflexivity|]. pose proof (Zabs_in _ _ I). lia.
Qed.
Definition holdsI := holds IntD SI isII.
Lemma WorkSumI {V} vals (k : list V -> sg IntD -> sg IntD) nt sch l :
  (forall a b, vals (a ++ b) = vals a ++ vals b) -> vals [] = [] -> (forall a b, Permutation a b -> Permutation (vals a) (vals b)) ->
  splits l sch -> (forall b, incl b l -> adds IntD SI smallI isII vals k b) -> smallI (vals l) -> holdsI (vals l) (WorkSum IntD k nt sch l (sg0 IntD)).
Proof.
  apply (WorkSum_ok IntD SI smallI isII eq_refl intS_app SI_perm small_permI small_lI nonanI eq_refl appII); [|exact rangeII].
  intros a b z P H. unfold isII in *. now rewrite <- (SI_perm _ _ P).
Qed.
Lemma valid_iff t x : ivalid t x = true <-> x <> inv t.
Proof. unfold ivalid. rewrite negb_true_iff, Z.eqb_neq. reflexivity. Qed.

Lemma return_ok t l s : in_type t l -> Zabs_sum l <= 2 ^ 53 -> holdsI (map Some l) s -> sum_return t s = PyInt (Zsum l).
Proof.
  intros T B (_ & H2 & H3). unfold isII in H3. rewrite SI_some in *. injection H3 as H3. pose proof (Zabs_le l) as L.
  destruct t; cbn [sum_return]; rewrite ?H2, <- ?H3; try reflexivity.
  - cbn [dgt dlt]. destruct (Z.ltb_spec (2 ^ 63) (Zsum l)); [lia|]. destruct (Z.ltb_spec (Zsum l) (- 2 ^ 63)); [lia|]. reflexivity.
  - cbn [dgt]. destruct (Z.ltb_spec (2 ^ 64) (Zsum l)); [lia|].
    assert (P : 0 <= Zsum l). { clear - T. induction T as [|x l H T IH]; cbn; [lia|]. fold (Zsum l). unfold tmin in H. cbn in H. lia. }
    unfold INT64_MIN. destruct (Z.eqb_spec (Zsum l) (- 2 ^ 63)); [lia|]. rewrite Z.mod_small; [reflexivity|lia].
Qed.

Lemma int_sum_valid t nt sch l : l <> [] -> in_type t l -> splits l sch -> (forall x, In x l -> x <> inv t) -> Zabs_sum l <= 2 ^ 53 ->
  int_sum t nt sch l = PyInt (Zsum l).
Proof.
  intros N T P V B. unfold int_sum. destruct l as [|x0 l0] eqn:EL; [congruence|]. rewrite <- EL in *. clear EL.
  apply return_ok; try assumption. rewrite <- (toD_small l B).
  apply WorkSumI; try assumption.
  - intros; apply map_app.
  - reflexivity.
  - intros; now apply Permutation_map.
  - intros b I.
    assert (VB : forall x, In x b -> ivalid t x = true) by (intros x X; apply valid_iff; auto).
    unfold sum_kernel. destruct t;
      first [ addsI @adds_i32; exact VB
            | addsI @adds_slow; exact VB ].
  - rewrite (toD_small l B). exists l. auto.
Qed.
Lemma int_sum_invalid t nt sch l : splits l sch -> In (inv t) l -> int_sum t nt sch l = PyInt (inv64 t).
Proof.
  intros P I. unfold int_sum. destruct l as [|x0 l0] eqn:EL; [contradiction|]. rewrite <- EL in *. clear EL.
  assert (H : resultOut (WorkSum IntD (sum_kernel t) nt sch l (sg0 IntD)) = None /\ resultInt (WorkSum IntD (sum_kernel t) nt sch l (sg0 IntD)) = INT64_MIN).
  { assert (AN : forall x, add_d IntD None x = None) by reflexivity.
    assert (NA : forall x, add_d IntD x None = None) by (intros [x|]; reflexivity).
    assert (AI : forall x, add_i INT64_MIN x = INT64_MIN) by (intros x; unfold add_i; now rewrite Z.eqb_refl).
    assert (IA : forall x, add_i x INT64_MIN = INT64_MIN) by (intros x; unfold add_i; now rewrite Z.eqb_refl, orb_true_r).
    assert (SLOW : forall b acc, In (inv t) b -> slow_sum IntD (ivalid t) toD b acc = None).
    { induction b as [|y b IH]; intros acc Y; [destruct Y|]. cbn [slow_sum]. destruct Y as [->|Y].
      - unfold ivalid. now rewrite Z.eqb_refl.
      - destruct (ivalid t y); [now apply IH|reflexivity]. }
    assert (SK : forall b (s : sg IntD), resultOut s = None /\ resultInt s = INT64_MIN \/ In (inv t) b -> resultOut (AddSlow IntD (ivalid t) toD b s) = None /\ resultInt (AddSlow IntD (ivalid t) toD b s) = INT64_MIN).
    { intros b s [[H1 H2]|H]; unfold AddSlow; cbv zeta; cbn [resultOut resultInt].
      - rewrite H1, AN. split; reflexivity.
      - rewrite (SLOW b _ H), NA. split; reflexivity. }
    assert (IK : forall b (s : sg IntD), resultOut s = None /\ resultInt s = INT64_MIN \/ In (inv t) b -> resultOut (AddI32 IntD (ivalid t) toD b s) = None /\ resultInt (AddI32 IntD (ivalid t) toD b s) = INT64_MIN).
    { intros b s H. unfold AddI32. destruct (existsb (fun x => negb (ivalid t x)) b) eqn:E; [split; reflexivity|].
      destruct H as [[H1 H2]|H].
      - cbv zeta. cbn [resultOut resultInt]. rewrite H1, H2, AN, AI. split; reflexivity.
      - exfalso. assert (C : existsb (fun x => negb (ivalid t x)) b = true) by (apply existsb_exists; exists (inv t); split; [assumption|]; unfold ivalid; now rewrite Z.eqb_refl).
        congruence. }
    apply (WorkSum_bad IntD (fun s => resultOut s = None /\ resultInt s = INT64_MIN) (sum_kernel t) (fun x => x = inv t)).
    - intros b s H. destruct t; cbn [sum_kernel]; first [apply IK|apply SK]; now left.
    - intros b s (x & X & ->). destruct t; cbn [sum_kernel]; first [apply IK|apply SK]; now right.
    - intros s c [H1 H2]. unfold gather_sum. cbv zeta. rewrite H1, AN. split; reflexivity.
    - intros s c [H1 H2]. unfold gather_sum. cbv zeta. rewrite H1, NA. split; reflexivity.
    - assumption.
    - now exists (inv t). }
  destruct H as [H1 H2]. destruct t; cbn [sum_return inv64]; rewrite ?H1, ?H2; reflexivity.
Qed.
Lemma filter_perm' {X} (p : X -> bool) a b : Permutation a b -> Permutation (filter p a) (filter p b).
Proof.
  induction 1 as [|x a b P IH|x y a|a b c P1 IH1 P2 IH2]; cbn.
  - constructor.
  - destruct (p x); [now constructor|assumption].
  - destruct (p x), (p y); try reflexivity. apply perm_swap.
  - etransitivity; eassumption.
Qed.
Lemma int_nansum_ok t nt sch l : l <> [] -> in_type t l -> splits l sch -> Zabs_sum (filter (ivalid t) l) <= 2 ^ 53 ->
  int_nansum t nt sch l = PyInt (Zsum (filter (ivalid t) l)).
Proof.
  intros N T P B. unfold int_nansum. destruct l as [|x0 l0] eqn:EL; [congruence|]. rewrite <- EL in *. clear EL.
  apply return_ok; try assumption.
  { apply Forall_forall. intros x I. apply filter_In in I as [I _]. unfold in_type in T. rewrite Forall_forall in T. auto. }
  rewrite <- (toD_small _ B).
  apply (WorkSumI (fun b => map toD (filter (ivalid t) b))); try assumption.
  - intros. now rewrite filter_app, map_app.
  - reflexivity.
  - intros; now apply Permutation_map, filter_perm'.
  - intros b I. addsI @adds_nan.
  - rewrite (toD_small _ B). eexists. eauto.
Qed.
