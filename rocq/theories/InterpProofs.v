(** Piecewise linear interpolation. *)
From Verif Require Import Base Mem MemLemmas Par InterpModel InterpSpec.
Local Open Scope Qc_scope.

Lemma gtQ_spec a b : if gtQ a b then b < a else a <= b.
Proof. unfold gtQ. now destruct (Qclt_le_dec b a). Qed.
Lemma nth_points xp yp o M : (o + M <= length xp)%nat -> (o + M <= length yp)%nat -> forall j, (j < M)%nat ->
  exists a b, nth_error xp (o + j) = Some a /\ nth_error yp (o + j) = Some b /\ nth_error (points xp yp o M) j = Some (a, b).
Proof.
  intros Hx Hy j Hj. destruct (nth_error xp (o + j)) as [a |] eqn:Ea; [| apply nth_error_None in Ea; lia]. destruct (nth_error yp (o + j)) as [b |] eqn:Eb; [| apply nth_error_None in Eb; lia].
  exists a, b. split; auto. split; auto. unfold points.
  assert (F : forall (l : list Qc) (v : Qc), nth_error l (o + j) = Some v -> nth_error (firstn M (skipn o l)) j = Some v).
  { intros l v H. rewrite <- nth_error_skipn in H. rewrite <- H. clear - Hj. revert j Hj. generalize (skipn o l). induction M as [| m IH]; intros l' j Hj; [lia |]. destruct l', j; auto. cbn. apply IH. lia. }
  apply F in Ea, Eb. revert Ea Eb. generalize (firstn M (skipn o xp)) (firstn M (skipn o yp)). intros l. clear. revert j. induction l as [| c l IH]; intros [| j] [| d m]; cbn; try discriminate; auto. intros [= ->] [= ->]. auto.
Qed.
Lemma points_len xp yp o M : (o + M <= length xp)%nat -> (o + M <= length yp)%nat -> length (points xp yp o M) = M.
Proof. intros. unfold points. rewrite combine_length, !firstn_length, !skipn_length. lia. Qed.

Section Row.
  Context (xp yp : list Qc) (o M : nat).
  Hypothesis Hx : (o + M <= length xp)%nat.
  Hypothesis Hy : (o + M <= length yp)%nat.
  Hypothesis HM : (2 <= M)%nat.
  Notation pts := (points xp yp o M).
  Hypothesis Inc : increasing pts.
  Lemma seek_ok xi : forall fuel j, (fuel + j = M + 1)%nat -> (1 <= j <= M)%nat ->
    (exists a, nth_error xp (o + (j - 1)) = Some a /\ a < xi) ->
    (o + M < length xp)%nat \/ reached pts xi ->
    exists r, seek xp o M fuel j xi = Some r /\ (j <= r <= M)%nat /\ (exists a, nth_error xp (o + (r - 1)) = Some a /\ a < xi) /\ ((r < M)%nat -> exists b, nth_error xp (o + r) = Some b /\ xi <= b).
  Proof.
    induction fuel as [| f IH]; intros j Hf Hj A R; [lia |]. cbn [seek].
    destruct (Nat.ltb_spec j M) as [L | L].
    - destruct (nth_points xp yp o M Hx Hy j L) as (a & b & Ea & Eb & Ep). rewrite Ea. rewrite andb_true_r. pose proof (gtQ_spec xi a) as G. destruct (gtQ xi a).
      + destruct (IH (S j) ltac:(lia) ltac:(lia)) as (r & E & B1 & B2 & B3); auto. { exists a. replace (S j - 1)%nat with j by lia. auto. } exists r. split; auto. split; [lia |]. auto.
      + exists j. split; auto. split; [lia |]. split; eauto.
    - assert (j = M) as -> by lia. assert (exists v, nth_error xp (o + M) = Some v) as (v & ->).
      { destruct R as [R | (p & Ep & Hp)]. { destruct (nth_error xp (o + M)) eqn:E; eauto. apply nth_error_None in E. lia. }
        exfalso. rewrite points_len in Ep by auto. destruct (nth_points xp yp o M Hx Hy (M - 1) ltac:(lia)) as (a' & b & Ea' & _ & Ep'). destruct A as (a & Ea & Ha).
        assert (p = (a', b)) as -> by congruence. assert (a' = a) as -> by congruence. cbn in Hp. apply (Qclt_not_le _ _ Ha Hp). }
      exists M. rewrite andb_false_r. split; auto. split; [lia |]. split; auto. lia.
  Qed.
  Lemma interp_ok clip xi : (o + M < length xp)%nat \/ reached pts xi -> exists d, interp xp yp o M clip (Some xi) = Some (Some d) /\ interpolates clip pts xi d.
  Proof.
    intros R. unfold interp. pose proof (nth_points xp yp o M Hx Hy) as P.
    assert (NZ : forall i j p q, (i < j)%nat -> nth_error pts i = Some p -> nth_error pts j = Some q -> fst q - fst p <> 0).
    { intros i j p q Hij Ep Eq E. pose proof (Inc i j p q Hij Ep Eq) as L. assert (fst q = fst p) as Ee. { replace (fst q) with (fst q - fst p + fst p) by ring. rewrite E. ring. } rewrite Ee in L. apply (Qclt_not_eq _ _ L). reflexivity. }
    destruct (P 0%nat ltac:(lia)) as (x0 & y0 & Ex0 & Ey0 & E0). rewrite Nat.add_0_r in Ex0, Ey0. rewrite Ex0, Ey0. pose proof (gtQ_spec xi x0) as G. destruct (gtQ xi x0).
    - destruct (seek_ok xi M 1 ltac:(lia) ltac:(lia)) as (r & E & B1 & (a & Ea & Ha) & B3); auto. { exists x0. cbn. rewrite Nat.add_0_r. auto. } rewrite E.
      destruct (Nat.eqb_spec r M) as [-> | Ne].
      + destruct (P (M - 1)%nat ltac:(lia)) as (xl & yl & Exl & Eyl & El). destruct (P (M - 2)%nat ltac:(lia)) as (xk & yk & Exk & Eyk & Ek). rewrite Eyl, Eyk, Exl, Exk.
        assert (a = xl) as -> by congruence. pose proof (NZ (M - 2)%nat (M - 1)%nat _ _ ltac:(lia) Ek El) as Z0. cbn in Z0.
        exists (if clip then yl else yl + (yl - yk) / (xl - xk) * (xi - xl)). split; [now destruct clip |]. right. right. exists (xk, yk), (xl, yl). rewrite points_len by auto. split; auto. split; auto. split; auto.
        destruct clip; auto. unfold line. cbn. field. exact Z0.
      + destruct (P r ltac:(lia)) as (xb & yb & Exb & Eyb & Eb). destruct (P (r - 1)%nat ltac:(lia)) as (xa & ya & Exa & Eya & Ea'). rewrite Eya, Eyb, Exa, Exb.
        assert (a = xa) as -> by congruence. destruct (B3 ltac:(lia)) as (b & Eb2 & Hb). assert (b = xb) as -> by congruence. eexists. split; [reflexivity |]. right. left. exists (r - 1)%nat, (xa, ya), (xb, yb).
        replace (S (r - 1))%nat with r by lia. repeat split; auto. unfold line. cbn. ring.
    - destruct (P 1%nat ltac:(lia)) as (x1 & y1 & Ex1 & Ey1 & E1). rewrite Ex1, Ey1. exists (if clip then y0 else y0 + (y1 - y0) / (x1 - x0) * (xi - x0)). split; [now destruct clip |]. left. exists (x0, y0), (x1, y1). repeat split; auto.
      destruct clip; auto. unfold line. cbn. pose proof (NZ 0%nat 1%nat _ _ ltac:(lia) E0 E1) as Z0. cbn in Z0. field. exact Z0.
  Qed.
End Row.

Lemma InterpExtrap2d_ok (ord : sched) (thr two clip : bool) (M : nat) (x : list (option Qc)) (xp yp : list Qc) : fair ord -> (2 <= M)%nat ->
  length xp = (if two then length x * M else M)%nat -> length yp = (if two then length x * M else M)%nat ->
  (forall i, (i < length x)%nat -> increasing (points xp yp (row_start two M i) M)) ->
  (forall i xi, nth_error x i = Some (Some xi) -> (two = true /\ S i < length x)%nat \/ reached (points xp yp (row_start two M i) M) xi) ->
  exists out, InterpExtrap2d ord thr two clip M x xp yp = IOk out /\ length out = length x /\
    forall i v, nth_error x i = Some v -> match v with
      | None => nth_error out i = Some None
      | Some xi => exists d, nth_error out i = Some (Some d) /\ interpolates clip (points xp yp (row_start two M i) M) xi d
      end.
Proof.
  intros Fo HM Lx Ly Inc Re. unfold InterpExtrap2d. rewrite Lx, Ly, Nat.eqb_refl. destruct (Nat.ltb_spec M 2); [lia |]. cbn [negb orb].
  assert (G : forall i, (i < length x)%nat -> exists v d, nth_error x i = Some v /\ interp xp yp (row_start two M i) M clip v = Some d /\
     match v with None => d = None | Some xi => exists r, d = Some r /\ interpolates clip (points xp yp (row_start two M i) M) xi r end).
  { intros i Hi. destruct (nth_error x i) as [v |] eqn:E; [| apply nth_error_None in E; lia]. exists v. destruct v as [xi |]; [| exists None; auto].
    assert (B : (row_start two M i + M <= length xp)%nat /\ (row_start two M i + M <= length yp)%nat). { rewrite Lx, Ly. unfold row_start. destruct two; nia. }
    destruct (interp_ok xp yp (row_start two M i) M ltac:(apply B) ltac:(apply B) HM (Inc i Hi) clip xi) as (d & E1 & H1).
    { destruct (Re i xi E) as [[-> Hl] | Hr]; auto. left. rewrite Lx. unfold row_start. nia. }
    exists (Some d). split; auto. split; auto. exists d. auto. }
  set (g := fun i => match nth_error x i with Some v => match interp xp yp (row_start two M i) M clip v with Some d => d | None => None end | None => None end).
  rewrite (par_map_some ord thr CHUNK (length x) _ g None Fo).
  - exists (map g (seq 0 (length x))). split; auto. split; [now rewrite map_length, seq_length |]. intros i v E. assert (Hi : (i < length x)%nat) by (apply nth_error_Some; congruence).
    destruct (G i Hi) as (v' & d & Ev & Ed & Hd). assert (v' = v) as -> by congruence. rewrite nth_error_map, nth_error_seq. destruct (Nat.ltb_spec i (length x)); [| lia]. cbn [option_map]. unfold g. cbn [Nat.add]. rewrite E, Ed. destruct v; [destruct Hd as (r & -> & ?); eauto | now subst].
  - unfold CHUNK. lia.
  - intros i Hi. destruct (G i Hi) as (v & d & Ev & Ed & _). unfold g. rewrite Ev. fold (row_start two M i). now rewrite Ed.
Qed.

Lemma seek_out (xp : list Qc) o M xi : length xp = (o + M)%nat -> (forall k a, (k < M)%nat -> nth_error xp (o + k) = Some a -> a < xi) ->
  forall fuel j, (fuel + j = M + 1)%nat -> (j <= M)%nat -> seek xp o M fuel j xi = None.
Proof.
  intros L A. induction fuel as [| f IH]; intros j Hf Hj; cbn [seek]; auto. destruct (nth_error xp (o + j)) as [a |] eqn:E; auto.
  assert (Hl : (o + j < length xp)%nat) by (apply nth_error_Some; congruence).
  destruct (Nat.ltb_spec j M); [| lia]. pose proof (A j a ltac:(lia) E) as Ha. pose proof (gtQ_spec xi a) as G. destruct (gtQ xi a); [cbn; apply IH; lia |].
  exfalso. apply (Qclt_not_le _ _ Ha G).
Qed.
(** a value above the last point of the last row *)
Lemma beyond_undefined (ord : sched) (thr two clip : bool) (M i : nat) (x : list (option Qc)) (xp yp : list Qc) xi : (2 <= M)%nat ->
  length xp = (if two then length x * M else M)%nat -> length yp = (if two then length x * M else M)%nat ->
  nth_error x i = Some (Some xi) -> (two = true -> S i = length x) ->
  (forall p, In p (points xp yp (row_start two M i) M) -> fst p < xi) ->
  InterpExtrap2d ord thr two clip M x xp yp = IUndef.
Proof.
  intros HM Lx Ly E La A. unfold InterpExtrap2d. rewrite Lx, Ly, Nat.eqb_refl. destruct (Nat.ltb_spec M 2) as [Hb | Hb]; [lia |]. cbn [negb orb].
  rewrite (par_map_none _ _ _ _ _ _ i); auto.
  - unfold CHUNK. lia.
  - apply nth_error_Some. congruence.
  - rewrite E. fold (row_start two M i). set (o := row_start two M i) in *.
    assert (Lo : length xp = (o + M)%nat /\ length yp = (o + M)%nat). { rewrite Lx, Ly. unfold o, row_start. destruct two; [| lia]. rewrite <- La by auto. lia. }
    assert (A' : forall k a, (k < M)%nat -> nth_error xp (o + k) = Some a -> a < xi).
    { intros k a Hk Ek. destruct (nth_points xp yp o M ltac:(lia) ltac:(lia) k Hk) as (a' & b & Ea & Eb & Ep). assert (a' = a) as -> by congruence. apply (A (a, b)). eapply nth_error_In; eauto. }
    unfold interp. destruct (nth_points xp yp o M ltac:(lia) ltac:(lia) 0 ltac:(lia)) as (x0 & y0 & Ex & Ey & _). pose proof (A' 0%nat x0 ltac:(lia) Ex) as H0. rewrite Nat.add_0_r in Ex, Ey. rewrite Ex, Ey.
    pose proof (gtQ_spec xi x0) as G. destruct (gtQ xi x0); [| exfalso; apply (Qclt_not_le _ _ H0 G)].
    rewrite (seek_out xp o M xi); auto; try lia; tauto.
Qed.
