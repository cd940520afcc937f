(** Proofs about Rolling: sums and means in arithmetic that is exact on some values only. *)
From Verif Require Import Base AccumSpec GrpxModel GrpxSpec Grpx3Proofs RollModel RollSpec RollProofs.
Local Open Scope Z_scope.

Section Exact.
  Context {T U : Type} (conv : T -> U) (zero : U) (add sub : U -> U -> U) (div : U -> Z -> U) (ok : T -> bool) (V : U -> Prop).
  Hypothesis V0 : V zero.
  Hypothesis VA : forall a b, V a -> V b -> V (add a b) /\ add a b = add b a /\ sub (add a b) b = a.
  Hypothesis VT : forall a b c, V a -> V b -> V c -> add (add a b) c = add a (add b c).

  Lemma total_pull (l : list T) : forall s y, Forall (fun x => V (conv x)) l -> V s -> V y ->
    V (fold_left (fun s x => add s (conv x)) l s) /\ fold_left (fun s x => add s (conv x)) l (add s y) = add (fold_left (fun s x => add s (conv x)) l s) y.
  Proof.
    induction l as [|x l IH]; intros s y HL HS HY; [split; [exact HS|reflexivity]|]. inversion HL as [|? ? Hx Hl]; subst. cbn [fold_left].
    destruct (VA s (conv x) HS Hx) as (H1 & _). destruct (IH (add s (conv x)) y Hl H1 HY) as (V1 & E1). split; [exact V1|].
    rewrite <- E1. f_equal. rewrite !VT by auto. f_equal. now apply VA.
  Qed.
  Lemma total_slide (l l' : list T) x y : Forall (fun x => V (conv x)) (y :: l) -> V (conv x) -> l ++ [x] = l' ->
    sub (add (total zero conv add (y :: l)) (conv x)) (conv y) = total zero conv add l'.
  Proof.
    intros HL Hx <-. inversion HL as [|? ? Hy Hl]; subst. unfold total. cbn [fold_left]. rewrite fold_left_app. cbn [fold_left].
    destruct (total_pull l zero (conv y) Hl V0 Hy) as (V1 & ->). set (t := fold_left _ l zero) in *.
    rewrite VT by auto. rewrite (proj1 (proj2 (VA (conv y) (conv x) Hy Hx))). rewrite <- VT by auto. apply VA; auto. now apply VA.
  Qed.

  Context (win : Z) (l : list T) (HW : 0 <= win) (HV : Forall (fun x => ok x = true -> V (conv x)) l).

  Lemma in_window k x : In x (wbefore win k l) -> In x l.
  Proof. unfold wbefore. intros H. rewrite <- (firstn_skipn k l). apply in_or_app. left. rewrite <- (firstn_skipn (k - Z.to_nat win) (firstn k l)). apply in_or_app. now right. Qed.
  Lemma kept_valid k : Forall (fun x => V (conv x)) (filter ok (wbefore win k l)).
  Proof. apply Forall_forall. intros x Hx. apply filter_In in Hx as (Hx & Ho). rewrite Forall_forall in HV. apply HV; auto. now apply in_window in Hx. Qed.
  Lemma slide_kept k x y : nth_error l k = Some x -> 0 <= win <= Z.of_nat k -> nth_error l (k - Z.to_nat win) = Some y ->
    sub_ok conv sub ok (add_ok conv add ok (total zero conv add (filter ok (wbefore win k l))) x) y = total zero conv add (filter ok (wbefore win (S k) l)) /\
    Z.of_nat (length (filter ok (wbefore win k l))) + count_ok ok x - count_ok ok y = Z.of_nat (length (filter ok (wbefore win (S k) l))).
  Proof.
    intros E L Ey. destruct (wslide win k l x E L) as (y' & Ey' & EL). rewrite Ey in Ey'. injection Ey' as <-.
    pose proof (kept_valid k) as HK. pose proof (kept_valid (S k)) as HK'. rewrite Forall_forall in HV. pose proof (HV x (nth_error_In _ _ E)) as Vx. pose proof (HV y (nth_error_In _ _ Ey)) as Vy.
    apply (f_equal (filter ok)) in EL. rewrite filter_app in EL. cbn [filter] in EL. unfold sub_ok, add_ok, count_ok.
    set (w := filter ok (wbefore win k l)) in *. set (w' := filter ok (wbefore win (S k) l)) in *.
    destruct (ok x) eqn:Ox, (ok y) eqn:Oy; cbn [app] in EL.
    - destruct w as [|y0 w0]; cbn [app] in EL.
      + injection EL as -> <-. unfold total. cbn [fold_left length]. split; [|lia]. now apply VA; auto.
      + injection EL as -> EL. split; [now apply total_slide; auto|]. rewrite <- EL, app_length. cbn [length]. lia.
    - rewrite <- EL. split; [now rewrite total_snoc|]. rewrite app_length. cbn [length]. lia.
    - rewrite app_nil_r in EL. rewrite EL. split; [|cbn [length]; lia]. unfold total. cbn [fold_left]. destruct (total_pull w' zero (conv y) HK' V0 (Vy eq_refl)) as (V1 & ->). now apply VA; auto.
    - rewrite app_nil_r in EL. rewrite EL. split; [reflexivity|lia].
  Qed.
  Lemma nansum_on : exists res, RollingNanSum conv zero add sub ok win l = Some res /\ rolled (fun k u => u = total zero conv add (filter ok (window win k l))) l res.
  Proof.
    unfold RollingNanSum. apply roll_ok with (I := fun k s => s = total zero conv add (filter ok (wbefore win k l))); auto; cbn beta zeta.
    - intros k x s L E ->. rewrite <- wwindow, (grow_filter conv zero add ok win k l x E L). auto.
    - intros k x y s L E Ey ->. rewrite <- wwindow. rewrite (proj1 (slide_kept k x y E L Ey)). auto.
  Qed.
  Lemma nanmean_on : exists res, RollingNanMean conv zero add sub div ok win l = Some res /\
    rolled (fun k u => u = div (total zero conv add (filter ok (window win k l))) (Z.of_nat (length (filter ok (window win k l))))) l res.
  Proof.
    unfold RollingNanMean. apply roll_ok with (I := fun k s => s = (total zero conv add (filter ok (wbefore win k l)), Z.of_nat (length (filter ok (wbefore win k l))))); auto; cbn beta zeta.
    - intros k x s L E ->. rewrite <- wwindow, (grow_filter conv zero add ok win k l x E L).
      replace (Z.of_nat (length (filter ok (wbefore win k l))) + count_ok ok x) with (Z.of_nat (length (filter ok (wbefore win (S k) l)))); auto.
      rewrite (wgrow win k l x E L), filter_app, app_length. cbn [filter]. unfold count_ok. destruct (ok x); cbn [length]; lia.
    - intros k x y s L E Ey ->. rewrite <- wwindow. destruct (slide_kept k x y E L Ey) as (-> & ->). auto.
  Qed.
End Exact.

Lemma filter_true {X} (l : list X) : filter (fun _ => true) l = l.
Proof. induction l as [|x l IH]; [reflexivity|]. cbn. now rewrite IH. Qed.

Section Plain.
  Context {T U : Type} (conv : T -> U) (zero : U) (add sub : U -> U -> U) (div : U -> Z -> U) (V : U -> Prop).
  Hypothesis V0 : V zero.
  Hypothesis VA : forall a b, V a -> V b -> V (add a b) /\ add a b = add b a /\ sub (add a b) b = a.
  Hypothesis VT : forall a b c, V a -> V b -> V c -> add (add a b) c = add a (add b c).
  Context (win : Z) (l : list T) (HW : 0 <= win) (HV : Forall (fun x => V (conv x)) l).
  Lemma plain_valid : Forall (fun x => (fun _ => true) x = true -> V (conv x)) l.
  Proof. eapply Forall_impl; [|exact HV]. auto. Qed.
  Lemma sum_on : exists res, RollingSum conv zero add sub win l = Some res /\ rolled (fun k u => u = total zero conv add (window win k l)) l res.
  Proof.
    destruct (nansum_on conv zero add sub div (fun _ => true) V V0 VA VT win l HW plain_valid) as (res & E & L & H). exists res. split; [exact E|]. split; [exact L|]. intros k u Hu. rewrite (H k u Hu). now rewrite filter_true.
  Qed.
  Lemma mean_on : exists res, RollingMean conv zero add sub div win l = Some res /\ rolled (rmean_spec conv zero add div win l) l res.
  Proof.
    unfold RollingMean. apply roll_ok with (I := fun k s => s = total zero conv add (wbefore win k l)); auto; cbn beta zeta.
    - intros k x s L E ->. unfold rmean_spec. rewrite (wlength win k l x E). rewrite <- wwindow, (wgrow win k l x E L), total_snoc. split; auto. f_equal. lia.
    - intros k x y s L E Ey ->. unfold rmean_spec. rewrite (wlength win k l x E). rewrite <- wwindow.
      pose proof (proj1 (slide_kept conv zero add sub div (fun _ => true) V V0 VA VT win l plain_valid k x y E L Ey)) as H. unfold sub_ok, add_ok in H. rewrite !filter_true in H. rewrite H. split; auto. f_equal. lia.
  Qed.
End Plain.
