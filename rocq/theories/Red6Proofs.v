(** Minimum and maximum over lanes, blocks and cores. *)
From Verif Require Import Base Num RedModel RedSpec RedProofs Red3Proofs.
From Coq Require Import Permutation Lia.
Local Open Scope Z_scope.

Section mm.
Context (M : vops).
Hypothesis L_irr : forall x, vlt M x x = false.
Hypothesis L_trans : forall x y z, vlt M x y = true -> vlt M y z = true -> vlt M x z = true.
Hypothesis L_tot : forall x y, vvalid M x = true -> vvalid M y = true -> vlt M x y = false -> vlt M y x = false -> x = y.
Hypothesis inv_invalid : vvalid M (vinv M) = false.
Hypothesis inv_only : forall x, vvalid M x = false -> x = vinv M.

Lemma L_asym x y : vlt M x y = true -> vlt M y x = false.
Proof. intros H. destruct (vlt M y x) eqn:E; [|reflexivity]. rewrite <- (L_irr x). symmetry. eapply L_trans; eassumption. Qed.
Lemma not_lt_trans x y z : vvalid M x = true -> vvalid M y = true -> vvalid M z = true ->
  vlt M x y = false -> vlt M y z = false -> vlt M x z = false.
Proof.
  intros X Y Z H1 H2. destruct (vlt M x z) eqn:E; [|reflexivity].
  destruct (vlt M y x) eqn:E1.
  - rewrite (L_trans _ _ _ E1 E) in H2. discriminate.
  - rewrite (L_tot x y X Y H1 E1) in E. congruence.
Qed.

Section dir.
Context (max : bool).
(* y is strictly better than x *)
Definition better (x y : val M) : bool := if max then vlt M x y else vlt M y x.
Lemma extreme_def l r : extreme M max l r <-> In r l /\ forall x, In x l -> better r x = false.
Proof. reflexivity. Qed.
Lemma better_irr x : better x x = false.
Proof. unfold better. destruct max; apply L_irr. Qed.
Lemma better_asym x y : better x y = true -> better y x = false.
Proof. unfold better. destruct max; apply L_asym. Qed.
Lemma better_trans x y z : better x y = true -> better y z = true -> better x z = true.
Proof. unfold better. destruct max; intros; eapply L_trans; eassumption. Qed.
Lemma better_neg x y z : vvalid M x = true -> vvalid M y = true -> vvalid M z = true -> better x y = false -> better y z = false -> better x z = false.
Proof. unfold better. destruct max; intros X Y Z H1 H2; [apply (not_lt_trans x y z)|apply (not_lt_trans z y x)]; assumption. Qed.
Lemma std_better x y : std_op M max x y = if better x y then y else x.
Proof. unfold std_op, better. now destruct max. Qed.

Lemma all_valid_dec l : all_valid M l \/ exists x, In x l /\ vvalid M x = false.
Proof.
  induction l as [|x l [IH|(y & I & H)]].
  - left. intros x [].
  - destruct (vvalid M x) eqn:E; [left|right; exists x; split; [now left|assumption]].
    intros y [<-|I]; [assumption|now apply IH].
  - right. exists y. split; [now right|assumption].
Qed.
Lemma all_valid_app a b : all_valid M (a ++ b) <-> all_valid M a /\ all_valid M b.
Proof.
  split.
  - intros H. split; intros x I; apply H, in_or_app; auto.
  - intros [H1 H2] x I. apply in_app_or in I as [I|I]; auto.
Qed.
Lemma minmax_ext a b r : (forall y, In y a <-> In y b) -> minmax_ok M max a r -> minmax_ok M max b r.
Proof.
  intros E [H1 H2].
  assert (V : all_valid M a <-> all_valid M b) by (split; intros H x I; apply H, E, I).
  split.
  - intros H. apply V in H. destruct (H1 H) as [I X]. split; [now apply E|]. intros x J. apply X, E, J.
  - intros H. apply H2. intros C. apply H, V, C.
Qed.
Lemma minmax_valid l r : minmax_ok M max l r -> (vvalid M r = true <-> all_valid M l).
Proof.
  intros [H1 H2]. split; intros H.
  - destruct (all_valid_dec l) as [V|(x & I & X)]; [assumption|]. exfalso.
    rewrite H2, inv_invalid in H; [discriminate|]. intros C. rewrite (C x I) in X. discriminate.
  - destruct (H1 H) as [I _]. now apply H.
Qed.
Lemma extreme_app a b x y : all_valid M a -> all_valid M b -> extreme M max a x -> extreme M max b y -> extreme M max (a ++ b) (std_op M max x y).
Proof.
  intros VA VB [I1 H1] [I2 H2]. rewrite std_better.
  assert (VX : vvalid M x = true) by auto. assert (VY : vvalid M y = true) by auto.
  destruct (better x y) eqn:E; (split; [apply in_or_app; auto|]); intros z I; apply in_app_or in I as [I|I].
  - change (better y z = false). apply (better_neg y x z); auto; [now apply better_asym|now apply H1].
  - now apply H2.
  - now apply H1.
  - change (better x z = false). apply (better_neg x y z); auto. now apply H2.
Qed.

(** operations that keep the better value and spread invalid ones, for values in [dom] *)
Definition opok (dom : val M -> Prop) (op : val M -> val M -> val M) : Prop := forall a b, dom a -> dom b ->
  dom (op a b) /\ (vvalid M a = true -> vvalid M b = true -> op a b = std_op M max a b) /\ (vvalid M a = false \/ vvalid M b = false -> op a b = vinv M).
Lemma op_join dom op a b x y : opok dom op -> dom x -> dom y -> minmax_ok M max a x -> minmax_ok M max b y -> minmax_ok M max (a ++ b) (op x y).
Proof.
  intros O DX DY HA HB. destruct (O x y DX DY) as (_ & O1 & O2). pose proof (minmax_valid _ _ HA) as VA. pose proof (minmax_valid _ _ HB) as VB.
  split.
  - intros V. apply all_valid_app in V as [V1 V2]. apply VA in V1 as W1. apply VB in V2 as W2. rewrite O1 by assumption.
    apply extreme_app; [assumption|assumption|now apply HA|now apply HB].
  - intros V. apply O2. destruct (vvalid M x) eqn:E1; [|now left]. destruct (vvalid M y) eqn:E2; [|now right].
    exfalso. apply V, all_valid_app. split; [now apply VA|now apply VB].
Qed.
Lemma single_ok x : minmax_ok M max [x] x.
Proof.
  split.
  - intros _. split; [now left|]. intros y [<-|[]]. apply better_irr.
  - intros H. apply inv_only. destruct (vvalid M x) eqn:E; [|reflexivity]. exfalso. apply H. intros y [<-|[]]. assumption.
Qed.
Lemma agg_mm (isop : (val M -> val M -> val M) -> Prop) dom l r : (forall op, isop op -> opok dom op) -> agg isop None l r -> (forall x, In x l -> dom x) -> minmax_ok M max l r /\ dom r.
Proof.
  intros O H. induction H as [z E|x|op l1 l2 l a b OP H1 IH1 H2 IH2 P]; intros D.
  - discriminate.
  - split; [apply single_ok|apply D; now left].
  - assert (D1 : forall x, In x l1 -> dom x) by (intros x I; apply D; apply (Permutation_in x (Permutation_sym P)), in_or_app; auto).
    assert (D2 : forall x, In x l2 -> dom x) by (intros x I; apply D; apply (Permutation_in x (Permutation_sym P)), in_or_app; auto).
    destruct (IH1 D1) as [M1 E1]. destruct (IH2 D2) as [M2 E2].
    split; [|apply (O op OP a b E1 E2)].
    apply minmax_ext with (l1 ++ l2).
    + intros y. split; apply Permutation_in; [now symmetry|assumption].
    + eapply op_join; eauto.
Qed.
Lemma std_cases x y : std_op M max x y = x \/ std_op M max x y = y.
Proof. rewrite std_better. destruct (better x y); auto. Qed.
Lemma rt_ok dom : (forall x, vvalid M x = false -> dom (vinv M) \/ ~ dom x) -> opok dom (rt_op M max).
Proof.
  intros DI a b DA DB. unfold rt_op. destruct (vvalid M a) eqn:EA.
  - destruct (vvalid M b) eqn:EB; cbn [negb orb].
    + split; [destruct (std_cases a b) as [-> | ->]; assumption|]. split; [reflexivity|]. intros [H|H]; discriminate.
    + split; [destruct (DI b EB) as [H|H]; [assumption|contradiction]|]. split; [discriminate|reflexivity].
  - cbn [negb orb]. split; [destruct (DI a EA) as [H|H]; [assumption|contradiction]|]. split; [discriminate|reflexivity].
Qed.
Lemma rt_join a b x y : minmax_ok M max a x -> minmax_ok M max b y -> minmax_ok M max (a ++ b) (rt_op M max x y).
Proof. apply (op_join (fun _ => True)); auto. apply rt_ok. auto. Qed.

Context (dbl : val M -> fl).
Hypothesis dbl_lt : forall x y, vvalid M x = true -> vvalid M y = true -> flt (dbl x) (dbl y) = vlt M x y.
Hypothesis dbl_nan : forall x, vvalid M x = true -> is_nan (dbl x) = false.
Lemma cast_nan x : is_nan (cast_d M dbl x) = negb (vvalid M x).
Proof. unfold cast_d. destruct (vvalid M x) eqn:E; [now rewrite dbl_nan|reflexivity]. Qed.
Lemma cast_rt x y : rt_op FltV max (cast_d M dbl x) (cast_d M dbl y) = cast_d M dbl (rt_op M max x y).
Proof.
  unfold rt_op. cbn [vvalid FltV]. rewrite !cast_nan, !negb_involutive.
  destruct (vvalid M x) eqn:EX; cbn [negb orb].
  2:{ unfold cast_d. rewrite inv_invalid. reflexivity. }
  destruct (vvalid M y) eqn:EY; cbn [negb orb].
  2:{ unfold cast_d. rewrite inv_invalid. reflexivity. }
  unfold std_op. cbn [vlt FltV]. unfold cast_d. rewrite EX, EY.
  destruct max.
  - rewrite dbl_lt by assumption. destruct (vlt M x y); now rewrite ?EX, ?EY.
  - rewrite dbl_lt by assumption. destruct (vlt M y x); now rewrite ?EX, ?EY.
Qed.

(** the state after the values [d] *)
Definition mheld (d : list (val M)) (s : mm M) : Prop :=
  (d = [] /\ mlen s = 0) \/
  (d <> [] /\ 0 < mlen s /\ exists v, mval s = Some v /\ mout s = cast_d M dbl v /\ minmax_ok M max d v).
Definition madds (q : val M -> Prop) (vals : list (val M) -> list (val M)) (k : list (val M) -> mm M -> option (mm M)) (b : list (val M)) : Prop :=
  forall d s, (forall x, In x d -> q x) -> mheld d s -> exists s', k b s = Some s' /\ mheld (d ++ vals b) s'.

Lemma join_ok d b r s n : 0 < n -> b <> [] -> minmax_ok M max b r -> mheld d s -> exists s', join M dbl max n r s = Some s' /\ mheld (d ++ b) s'.
Proof.
  intros N NB HB [[-> L]|(ND & L & v & V1 & V2 & V3)]; unfold join.
  - rewrite L. cbn [Z.eqb]. eexists. split; [reflexivity|]. right. cbn [app mlen mval mout]. split; [assumption|]. split; [lia|].
    exists r. split; [reflexivity|]. split; [reflexivity|assumption].
  - destruct (Z.eqb_spec (mlen s) 0); [lia|]. rewrite V1. eexists. split; [reflexivity|]. right. cbn [mlen mval mout].
    split; [destruct d; [congruence|discriminate]|]. split; [lia|]. eexists. split; [reflexivity|].
    rewrite V2, cast_rt. split; [reflexivity|]. now apply rt_join.
Qed.
Lemma nv_ok l : forall d r, minmax_ok M max d r -> vvalid M r = true -> minmax_ok M max (d ++ l) (nv_loop M max l r).
Proof.
  induction l as [|x l IH]; intros d r H V; cbn [nv_loop]; [now rewrite app_nil_r|].
  destruct (vvalid M x) eqn:E.
  - replace (d ++ x :: l) with ((d ++ [x]) ++ l) by now rewrite <- app_assoc.
    assert (R : std_op M max r x = rt_op M max r x) by (unfold rt_op; now rewrite V, E).
    apply IH.
    + rewrite R. apply rt_join; [assumption|apply single_ok].
    + destruct (std_cases r x) as [-> | ->]; assumption.
  - split; [|reflexivity]. intros C. exfalso. rewrite (C x) in E; [discriminate|]. apply in_or_app. right. now left.
Qed.
Lemma scalar_ok b : b <> [] -> madds (fun _ => True) (fun b => b) (MM_scalar M dbl max) b.
Proof.
  intros N d s _ H. unfold MM_scalar. destruct b as [|x k] eqn:E; [congruence|].
  apply join_ok; [cbn; lia|discriminate| |assumption].
  destruct (vvalid M x) eqn:V.
  - apply (nv_ok k [x] x); [apply single_ok|assumption].
  - split; [|intros _; now apply inv_only]. intros C. rewrite (C x) in V; [discriminate|now left].
Qed.
Lemma avx2_ok scan vop w (dom : val M -> Prop) b : (0 < w)%nat -> b <> [] -> (forall x, In x b -> dom x) ->
  opok (fun x => dom x /\ (scan = true -> vvalid M x = true)) vop -> (scan = false -> dom (vinv M)) ->
  madds (fun _ => True) (fun b => b) (MM_avx2 M dbl max scan vop w) b.
Proof.
  intros W N D OV DI d s _ H. unfold MM_avx2. destruct b as [|x k] eqn:E; [congruence|]. rewrite <- E in *. assert (IX : In x b) by (rewrite E; now left). clear E k.
  destruct (scan && existsb (fun y => negb (vvalid M y)) b) eqn:S.
  - apply andb_prop in S as [S1 S2]. apply existsb_exists in S2 as (y & IY & Y). apply negb_true_iff in Y.
    eexists. split; [reflexivity|]. right. cbn [mlen mval mout].
    assert (LB : 0 < Z.of_nat (length b)) by (destruct b; [congruence|cbn; lia]).
    split; [destruct d; cbn; [assumption|discriminate]|]. split; [destruct H as [[_ L]|(_ & L & _)]; lia|].
    exists (vinv M). split; [reflexivity|]. split; [unfold cast_d; now rewrite inv_invalid|].
    split; [|reflexivity]. intros C. rewrite (C y) in Y; [discriminate|]. apply in_or_app. now right.
  - apply join_ok; [destruct b; [congruence|cbn; lia]|assumption| |assumption].
    destruct (vec_mm_agg M max vop w x b W IX) as (k & EK & G).
    apply minmax_ext with k; [assumption|].
    apply (agg_mm (fun op => op = vop \/ op = rt_op M max) (fun x => dom x /\ (scan = true -> vvalid M x = true)) k); [|assumption|].
    + intros op [-> | ->]; [assumption|]. apply rt_ok. intros y Y. destruct scan.
      * right. intros [_ C]. rewrite C in Y; [discriminate|reflexivity].
      * left. split; [auto|discriminate].
    + intros y IY. apply EK in IY. split; [auto|]. intros ->. cbn [andb] in S.
      destruct (vvalid M y) eqn:V; [reflexivity|]. exfalso.
      assert (C : existsb (fun y => negb (vvalid M y)) b = true) by (apply existsb_exists; exists y; now rewrite V). congruence.
Qed.
Lemma filter_valid l : all_valid M (filter (vvalid M) l).
Proof. intros x I. now apply filter_In in I. Qed.
Lemma fold_std k : forall d x, all_valid M (d ++ k) -> extreme M max d x -> extreme M max (d ++ k) (fold_left (std_op M max) k x).
Proof.
  induction k as [|y k IH]; intros d x V H; cbn [fold_left]; [now rewrite app_nil_r|].
  replace (d ++ y :: k) with ((d ++ [y]) ++ k) in * by now rewrite <- app_assoc.
  apply IH; [assumption|]. apply all_valid_app in V as [V _]. apply all_valid_app in V as [V1 V2].
  apply extreme_app; try assumption. split; [now left|]. intros z [<-|[]]. apply better_irr.
Qed.
Lemma nan_ok b : madds (fun x => vvalid M x = true) (filter (vvalid M)) (MM_nan M dbl max) b.
Proof.
  intros d s Q H. unfold MM_nan. pose proof (filter_valid b) as FV. destruct (filter (vvalid M) b) as [|x k] eqn:E.
  - exists s. rewrite app_nil_r. auto.
  - cbv zeta. set (r := fold_left (std_op M max) k x).
    assert (EX : extreme M max (x :: k) r).
    { apply (fold_std k [x]); [assumption|]. split; [now left|]. intros z [<-|[]]. apply better_irr. }
    assert (VR : vvalid M r = true) by (apply FV, EX).
    assert (OK : minmax_ok M max (x :: k) r) by (split; [auto|intros C; contradiction]).
    assert (CD : dbl r = cast_d M dbl r) by (unfold cast_d; now rewrite VR).
    destruct H as [[-> L]|(ND & L & v & V1 & V2 & V3)].
    + rewrite L. cbn [Z.eqb]. eexists. split; [reflexivity|]. right. cbn [app mlen mval mout]. split; [discriminate|]. split; [lia|].
      exists r. auto.
    + destruct (Z.eqb_spec (mlen s) 0); [lia|]. rewrite V1. eexists. split; [reflexivity|]. right. cbn [mlen mval mout].
      split; [destruct d; [congruence|discriminate]|]. split; [assumption|]. eexists. split; [reflexivity|].
      split; [|now apply rt_join].
      assert (VV : vvalid M v = true) by (apply (minmax_valid _ _ V3); exact Q).
      rewrite <- cast_rt, V2, CD. unfold rt_op. cbn [vvalid FltV]. rewrite !cast_nan, VV, VR. reflexivity.
Qed.

Lemma mheld_ext a b s : (forall y, In y a <-> In y b) -> mheld a s -> mheld b s.
Proof.
  intros E [[-> L]|(N & L & v & V1 & V2 & V3)].
  - left. split; [|assumption]. destruct b as [|y b]; [reflexivity|]. destruct (proj2 (E y) (or_introl eq_refl)).
  - right. split; [|split; [assumption|]].
    + intros ->. destruct a as [|y a]; [congruence|]. destruct (proj1 (E y) (or_introl eq_refl)).
    + exists v. split; [assumption|]. split; [assumption|]. eapply minmax_ext; eassumption.
Qed.
Lemma mblocks_ok q vals k bs : (forall b, In b bs -> madds q vals k b) -> (forall b x, In b bs -> In x (vals b) -> q x) -> forall d s, (forall x, In x d -> q x) ->
  mheld d s -> exists s', run_blocks M k bs s = Some s' /\ mheld (d ++ concat (map vals bs)) s'.
Proof.
  induction bs as [|b bs IH]; intros K Q d s QD H; cbn [run_blocks map concat].
  - exists s. rewrite app_nil_r. auto.
  - destruct (K b (or_introl eq_refl) d s QD H) as (s1 & -> & H1). rewrite app_assoc. apply IH.
    + intros b' I. apply K. now right.
    + intros b' x I. apply Q. now right.
    + intros x I. apply in_app_or in I as [I|I]; [auto|]. apply (Q b); [now left|assumption].
    + assumption.
Qed.
Lemma mgather_ok a b calcs s c : mheld a s -> (calcs = true <-> a <> []) -> mheld b c ->
  exists calcs' s', gather_mm M max (Some (calcs, s)) c = Some (calcs', s') /\ mheld (a ++ b) s' /\ (calcs' = true <-> a ++ b <> []).
Proof.
  intros HA CA HB. unfold gather_mm. cbv zeta.
  destruct HB as [[-> LB]|(NB & LB & u & U1 & U2 & U3)].
  - rewrite LB. cbn [Z.eqb]. do 2 eexists. split; [reflexivity|]. rewrite app_nil_r. split; [|assumption].
    destruct HA as [[-> LA]|(NA & LA & v & V1 & V2 & V3)]; [left; cbn; split; [reflexivity|lia]|].
    right. cbn. split; [assumption|]. split; [lia|]. exists v. auto.
  - destruct (Z.eqb_spec (mlen c) 0); [lia|].
    destruct HA as [[-> LA]|(NA & LA & v & V1 & V2 & V3)].
    + destruct calcs; [destruct (proj1 CA eq_refl); reflexivity|]. cbn [negb]. do 2 eexists. split; [reflexivity|]. cbn [app].
      split; [|tauto]. right. cbn. split; [assumption|]. split; [lia|]. exists u. auto.
    + rewrite (proj2 CA NA). cbn [negb]. rewrite V1, U1.
      assert (NE : a ++ b <> []) by (destruct a; [congruence|discriminate]).
      do 2 eexists. split; [reflexivity|]. split; [|tauto].
      right. split; [assumption|]. pose proof (rt_join _ _ _ _ V3 U3) as J. rewrite V2, U2, cast_rt, cast_nan.
      destruct (vvalid M (rt_op M max v u)) eqn:E; cbn [negb mlen mval mout]; (split; [lia|]).
      * exists (rt_op M max v u). auto.
      * exists (vinv M). split; [reflexivity|]. rewrite <- (inv_only _ E). auto.
Qed.
Lemma mcores_ok q vals k sch : (forall c b, In c sch -> In b c -> madds q vals k b) -> (forall c b x, In c sch -> In b c -> In x (vals b) -> q x) ->
  forall d calcs s, mheld d s -> (calcs = true <-> d <> []) ->
  exists calcs' s', run_cores M max k sch (Some (calcs, s)) = Some (calcs', s') /\ mheld (d ++ concat (map (fun c => concat (map vals c)) sch)) s'.
Proof.
  induction sch as [|c sch IH]; intros K Q d calcs s H C; cbn [run_cores map concat].
  - do 2 eexists. rewrite app_nil_r. split; [reflexivity|assumption].
  - destruct (mblocks_ok q vals k c) with (d := @nil (val M)) (s := mm0 M) as (s1 & -> & H1).
    + intros b I. apply (K c); [now left|assumption].
    + intros b x I J. apply (Q c b); [now left|assumption|assumption].
    + intros x [].
    + left. split; reflexivity.
    + cbn [app] in H1. destruct (mgather_ok _ _ _ _ _ H C H1) as (c2 & s2 & -> & H2 & C2).
      rewrite app_assoc. apply IH; [intros c' b I; apply K; now right|intros c' b x I; apply Q; now right|assumption|assumption].
Qed.
Lemma WorkMM_ok (q : val M -> Prop) (vals : list (val M) -> list (val M)) k nt sch l : (forall a b, vals (a ++ b) = vals a ++ vals b) -> vals [] = [] ->
  (forall a b, Permutation a b -> Permutation (vals a) (vals b)) -> (forall b x, In x (vals b) -> q x) ->
  splits l sch -> l <> [] -> (forall b, b <> [] -> incl b l -> madds q vals k b) ->
  exists s, WorkMM M max k nt sch l = Some s /\ mheld (vals l) s.
Proof.
  intros VA VN VP Q (P & NB) N K. unfold WorkMM. destruct (threaded nt l).
  - assert (C1 : forall bs, concat (map vals bs) = vals (concat bs)).
    { induction bs as [|b bs IH]; cbn; [now rewrite VN|]. now rewrite VA, IH. }
    assert (C : concat (map (fun c => concat (map vals c)) sch) = vals (concat (map (@concat _) sch))).
    { rewrite <- C1, map_map. f_equal. apply map_ext. intros c. apply C1. }
    destruct (mcores_ok q vals k sch) with (d := @nil (val M)) (calcs := false) (s := mm0 M) as (c & s & -> & H).
    + intros c b IC IB. apply K.
      * rewrite Forall_forall in NB. specialize (NB c IC). rewrite Forall_forall in NB. now apply NB.
      * intros x X. apply (Permutation_in x P). apply in_concat. exists (concat c). split; [apply in_map_iff; now exists c|].
        apply in_concat. now exists b.
    + intros c b x _ _. apply Q.
    + left. split; reflexivity.
    + split; [discriminate|congruence].
    + exists s. split; [reflexivity|]. cbn [app] in H. rewrite C in H. pose proof (VP _ _ P) as P'.
      eapply mheld_ext; [|exact H]. intros y. split; apply Permutation_in; [assumption|now symmetry].
  - destruct (K l N (incl_refl l) [] (mm0 M)) as (s & -> & H); [intros x []|left; split; reflexivity|].
    exists s. auto.
Qed.
End dir.
End mm.
