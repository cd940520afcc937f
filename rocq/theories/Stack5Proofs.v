(** The columns of all files. *)
From Coq Require Import SpecFloat.
From Verif Require Import Base MemLemmas Inter ConvModel ConvSpec StackModel StackSpec StackProofs Stack2Proofs Stack3Proofs Stack4Proofs.
Local Open Scope Z_scope.

(** ** Comparing the block of a column with an array *)
Definition king_ok (k : block) : Prop := (number_block k \/ text_block k) /\ b_dims k <> [].
Definition wide_enough (k o : block) : Prop := fits k o /\ (text_block o -> fixed o <> fixed k -> b_item o * 4 <= b_item k).

Lemma class_number t : WhichDType (num t) = IsFloat \/ WhichDType (num t) = IsInt \/ WhichDType (num t) = IsUInt.
Proof. destruct t; cbn; auto. Qed.
Lemma not_mixed m o fix_ : (number_block m /\ text_block o) \/ (text_block m /\ number_block o) -> exists m1, compare_types m o fix_ = (m1, false, false, false).
Proof.
  intros H.
  assert (E : exists t d, (d = 18 \/ d = 19) /\ ((fixed m = num t /\ fixed o = d) \/ (fixed m = d /\ fixed o = num t))).
  { destruct H as [[(t & T & _) To]|[Tm (t & T & _)]]; exists t; apply fixed_num in T.
    - destruct (text_fixed _ To) as (F & _ & D). exists (b_dtype o). auto.
    - destruct (text_fixed _ Tm) as (F & _ & D). exists (b_dtype m). auto. }
  destruct E as (t & d & Hd & [[E1 E2]|[E1 E2]]); unfold compare_types; rewrite E1, E2; exists m; destruct Hd as [-> | ->]; destruct t; reflexivity.
Qed.

Lemma fits_keep k k' p : king_ok k -> text_block k -> text_block k' -> b_dims k' = b_dims k ->
  ((b_dtype k' = b_dtype k /\ b_item k <= b_item k') \/ (b_dtype k = SDS_STRING /\ b_dtype k' = SDS_UNICODE)) -> fits k p -> fits k' p.
Proof.
  intros _ Tk Tk' Ed H [Tl F]. split; [congruence|]. right. destruct F as [(t & u & _ & _ & F & _)|(Tp & _ & F)].
  { exfalso. destruct (text_fixed _ Tk) as (_ & N & _). congruence. }
  split; auto. split; auto. destruct H as [[H1 H2]|[H1 H2]], F as [[F1 F2]|[F1 F2]].
  - left. split; [congruence|lia].
  - right. split; congruence.
  - right. split; congruence.
  - unfold SDS_STRING, SDS_UNICODE in *. lia.
Qed.
Lemma text_upgrade m d item : (d = 18 \/ (d = 19 /\ item mod 4 = 0)) -> 0 < item ->
  let m' := UpgradeType m d item in text_block m' /\ b_dtype m' = d /\ b_item m' = item /\ b_dims m' = b_dims m /\ b_c m' = b_c m /\ b_f m' = b_f m.
Proof.
  intros H Hi. cbv zeta.
  assert (E : UpgradeType m d item = B d item (b_dims m) (b_c m) (b_f m)) by (destruct H as [-> | [-> _]]; reflexivity).
  rewrite E. cbn [b_dtype b_item b_dims b_c b_f]. split; auto. split; auto.
Qed.

(* the types of two texts, when the block is fixed up *)
Lemma compare_texts m o : king_ok m -> text_block m -> text_block o -> tl (b_dims o) = tl (b_dims m) ->
  exists m1 str conv, compare_types m o true = (m1, true, str, conv) /\ text_block m1 /\ b_dims m1 = b_dims m /\ fits m1 o /\ (forall p, fits m p -> fits m1 p).
Proof.
  intros Hm Tm To Tl. destruct (text_fixed _ Tm) as (Fm & Nm & Dm). destruct (text_fixed _ To) as (Fo & No & Do).
  unfold compare_types. rewrite Fm, Fo.
  assert (Unicode : forall b, text_block b -> b_dtype b = 19 -> b_item b mod 4 = 0). { intros b [[T|[_ T]] _] E; auto. rewrite E in T. discriminate. }
  pose proof (proj2 Tm) as Im. pose proof (proj2 To) as Io.
  assert (Go : forall m1 : block, text_block m1 -> b_dims m1 = b_dims m -> ((b_dtype m1 = b_dtype m /\ b_item m <= b_item m1) \/ (b_dtype m = SDS_STRING /\ b_dtype m1 = SDS_UNICODE)) ->
     ((b_dtype o = b_dtype m1 /\ b_item o <= b_item m1) \/ (b_dtype o = SDS_STRING /\ b_dtype m1 = SDS_UNICODE)) -> forall str conv : bool,
     exists m2 str' conv', (m1, true, str, conv) = (m2, true, str', conv') /\ text_block m2 /\ b_dims m2 = b_dims m /\ fits m2 o /\ (forall p, fits m p -> fits m2 p)).
  { intros m1 T1 E1 H1 H2 str conv. exists m1, str, conv. split; auto. split; auto. split; auto. split.
    - split; [congruence|]. right. auto.
    - intros p. apply fits_keep; auto. }
  destruct (Z.eqb_spec (b_dtype m) (b_dtype o)) as [E|E].
  - assert (DS : (b_dtype m =? SDS_STRING) || (b_dtype m =? SDS_UNICODE) = true) by (unfold SDS_STRING, SDS_UNICODE; lia). rewrite DS.
    destruct (Z.eqb_spec (b_item m) (b_item o)) as [Ei|Ei]. { apply Go; auto; left; split; auto; lia. }
    cbn [andb]. destruct (Z.ltb_spec (b_item m) (b_item o)).
    + destruct (text_upgrade m (b_dtype m) (b_item o)) as (U1 & U2 & U3 & U4 & _); auto. { destruct Dm as [D|D]; auto. right. split; auto. apply Unicode; auto. congruence. }
      apply Go; auto; left; split; congruence || lia.
    + apply Go; auto; left; split; congruence || lia.
  - destruct Dm as [Dm|Dm], Do as [Do|Do]; try (exfalso; congruence); rewrite Dm, Do.
    + change (class_eqb (WhichDType 18) (WhichDType 19)) with true. cbv iota. unfold same_class. change (18 <? 19) with true. cbv iota.
      destruct (text_upgrade m 19 (b_item o)) as (U1 & U2 & U3 & U4 & _); auto.
      apply Go; auto. left. split; [congruence|lia].
    + change (class_eqb (WhichDType 19) (WhichDType 18)) with true. cbv iota. unfold same_class. change (19 <? 18) with false. cbv iota.
      change ((19 =? SDS_UNICODE) && (18 =? SDS_STRING)) with true. cbn [andb].
      destruct (Z.ltb_spec (b_item m) (b_item o * 4)).
      * destruct (text_upgrade m 19 (b_item o * 4)) as (U1 & U2 & U3 & U4 & _). { right. split; auto. apply Z.mod_mul. lia. } { lia. }
        apply Go; auto. left. split; [congruence|lia].
      * apply Go; auto. left. split; [auto|lia].
Qed.

Lemma same_dims (a b : list Z) : length a = length b -> forallb (fun p : Z * Z => fst p =? snd p) (combine a b) = true -> a = b.
Proof.
  revert b. induction a as [|x a IH]; intros [|y b] L H; try discriminate; auto. simpl in *. apply andb_true_iff in H as [H1 H2].
  apply Z.eqb_eq in H1. f_equal; auto.
Qed.
Lemma same_dims_refl (a : list Z) : forallb (fun p : Z * Z => fst p =? snd p) (combine a a) = true.
Proof. induction a; simpl; auto. rewrite Z.eqb_refl. auto. Qed.

(* the fields that do not matter here *)
Lemma flags_text b c f : text_block b -> text_block (B (b_dtype b) (b_item b) (b_dims b) c f).
Proof. auto. Qed.
Lemma flags_fits b c f p : fits b p -> fits (B (b_dtype b) (b_item b) (b_dims b) c f) p.
Proof. auto. Qed.

Lemma compare_dims m o fix_ : b_dims (fst (fst (fst (compare_types m o fix_)))) = b_dims m.
Proof.
  assert (U : forall d i, b_dims (UpgradeType m d i) = b_dims m) by reflexivity.
  unfold compare_types, same_class, with_float, with_sign. destruct fix_;
  repeat (match goal with |- context [if ?c then _ else _] => destruct c; cbn [fst andb] end); try reflexivity.
Qed.
Lemma compat_shape m o fix_ m' c : IsArrayCompatible m o fix_ = (m', c) -> b_dims m <> [] -> b_dims o <> [] -> c_ok c = true ->
  exists m1 str conv, compare_types m o fix_ = (m1, true, str, conv) /\ tl (b_dims o) = tl (b_dims m) /\ b_dtype m' = b_dtype m1 /\ b_item m' = b_item m1 /\ b_dims m' = b_dims m1.
Proof.
  unfold IsArrayCompatible. pose proof (compare_dims m o fix_) as Ed. destruct (compare_types m o fix_) as [[[m1 ok] str] conv]. cbn [fst] in Ed.
  intros H Dm Do Hc.
  assert (Dims : forall ok2, (1 <? ndim m1) = true -> ok2 = forallb (fun p : Z * Z => fst p =? snd p) (combine (tl (b_dims m1)) (tl (b_dims o))) -> ndim m1 = ndim o -> ok && ok2 = true -> ok = true /\ tl (b_dims o) = tl (b_dims m)).
  { intros ok2 _ -> L G. apply andb_true_iff in G as [G1 G2]. split; auto. rewrite <- Ed. symmetry. apply same_dims; auto. unfold ndim in L. rewrite Ed in *.
    destruct (b_dims m), (b_dims o); try congruence. simpl in *. lia. }
  destruct (Z.eqb_spec (ndim m1) (ndim o)) as [L|L]; cbn [negb] in H. 2:{ inversion H; subst. discriminate. }
  destruct (1 <? ndim m1) eqn:E1.
  - destruct (negb (b_c o && b_f o) && negb (Bool.eqb (b_f m1) (b_f o))).
    + destruct (fix_ && (b_c m1 && b_f m1)); apply pair_equal_spec in H as [<- <-]; cbn [c_ok] in Hc; destruct (Dims _ eq_refl eq_refl L Hc) as [-> T]; exists m1, str, conv; cbn [b_dtype b_item b_dims]; auto.
    + apply pair_equal_spec in H as [<- <-]; cbn [c_ok] in Hc; destruct (Dims _ eq_refl eq_refl L Hc) as [-> T]. exists m1, str, conv; auto.
  - inversion H; subst. cbn [c_ok] in Hc. subst ok. exists m', str, conv. split; auto. split; auto.
    unfold ndim in *. rewrite Ed in *. destruct (b_dims m) as [|x [|y r]], (b_dims o) as [|x' [|y' r']]; try congruence; simpl in *; lia || auto.
Qed.

Lemma fits_number m m1 u w p : of_num (fixed m) = Some u -> of_num (fixed m1) = Some w -> b_item m1 = size w -> b_dims m1 = b_dims m -> (forall t, below t u = true -> below t w = true) -> fits m p -> fits m1 p.
Proof.
  intros Fu Fw Iw Ed H [Tl F]. split; [congruence|]. left. destruct F as [(t & u' & F1 & F2 & F3 & F4 & F5)|(_ & Tm & _)].
  - assert (u' = u) by congruence. subst u'. exists t, w. auto 7.
  - destruct (text_fixed _ Tm) as (_ & N & _). congruence.
Qed.
Lemma fits_same a b p : b_dtype a = b_dtype b -> b_item a = b_item b -> b_dims a = b_dims b -> fits b p -> fits a p.
Proof.
  intros E1 E2 E3. unfold fits. assert (fixed a = fixed b) by (unfold fixed; congruence). rewrite E3, E2, H, E1. intros [H1 H2]. split; auto.
  destruct H2 as [H2|(H2 & H3 & H4)]; auto. right. split; auto. split; auto. unfold text_block in *. now rewrite E1, E2.
Qed.
Lemma king_same a b : b_dtype a = b_dtype b -> b_item a = b_item b -> b_dims a = b_dims b -> king_ok b -> king_ok a.
Proof.
  intros E1 E2 E3. unfold king_ok, number_block, text_block. assert (fixed a = fixed b) by (unfold fixed; congruence). now rewrite E3, E2, H, E1.
Qed.

(* an array is added *)
Lemma compat_fix m o m' c : king_ok m -> king_ok o -> IsArrayCompatible m o true = (m', c) -> c_ok c = true ->
  king_ok m' /\ fits m' o /\ (forall p, fits m p -> fits m' p).
Proof.
  intros [Tm Dm] [To Do] H Hc. destruct (compat_shape _ _ _ _ _ H Dm Do Hc) as (m1 & str & conv & E & Tl & E1 & E2 & E3).
  assert (G : king_ok m1 /\ fits m1 o /\ (forall p, fits m p -> fits m1 p)).
  2:{ destruct G as (G1 & G2 & G3). split; [|split]; [eapply king_same; eauto|eapply fits_same; eauto|]. intros p Hp. eapply fits_same; eauto. }
  destruct Tm as [Nm|Tm], To as [No|To].
  - destruct Nm as (u & Fu & Iu), No as (t & Ft & It). destruct (compare_numbers m o u t Fu Iu Ft It) as (m2 & conv' & E' & G1 & G2 & G3 & _).
    rewrite E in E'. assert (m2 = m1) by congruence. subst m2. split; [|split].
    + split; [left; exists (join u t); auto|congruence].
    + split; [congruence|]. left. exists t, (join u t). split; auto. split; auto. split; auto. split; auto. apply below_new.
    + intros p. apply (fits_number m m1 u (join u t)); auto. intros s Hs. pose proof (below_join s u t) as B. now rewrite Hs in B.
  - exfalso. destruct (not_mixed m o true) as [m2 E']; [auto|]. congruence.
  - exfalso. destruct (not_mixed m o true) as [m2 E']; [auto|]. congruence.
  - destruct (compare_texts m o (conj (or_intror Tm) Dm) Tm To Tl) as (m2 & str' & conv' & E' & G1 & G2 & G3 & G4).
    rewrite E in E'. assert (m2 = m1) by congruence. subst m2. split; auto. split; [auto|congruence].
Qed.

(* an array is compared again *)
Lemma compare_again m o : king_ok m -> b_dims o <> [] -> fits m o ->
  exists m', compare_types m o false = (m', true, (fixed m =? fixed o) && negb (b_item m =? b_item o), negb (fixed m =? fixed o)) /\
    king_ok m' /\ fixed m' = fixed m /\ b_dims m' = b_dims m /\ wide_enough m' o /\ (forall p, fits m p -> fits m' p) /\ (forall p, wide_enough m p -> wide_enough m' p) /\ (wide_enough m o -> m' = m).
Proof.
  intros Km Do FF. pose proof FF as [Tl F].
  assert (Same : wide_enough m o -> king_ok m /\ fixed m = fixed m /\ b_dims m = b_dims m /\ wide_enough m o /\ (forall p, fits m p -> fits m p) /\ (forall p, wide_enough m p -> wide_enough m p) /\ (wide_enough m o -> m = m)) by (intros W; auto 8).
  destruct F as [(t & u & F1 & F2 & F3 & F4 & Bl)|(To & Tm & F)].
  - exists m. assert (W : wide_enough m o).
    { split. { split; auto. left. exists t, u. auto 7. } intros To _. exfalso. destruct (text_fixed _ To) as (_ & N & _). congruence. }
    split; [|auto]. unfold compare_types.
    assert (D : b_dtype m <> 18 /\ b_dtype m <> 19).
    { pose proof (fixed_num _ _ F3) as Nu. split; intros E; unfold fixed, FixupDType in Nu; rewrite E in Nu; destruct u; discriminate. }
    assert (DS : (b_dtype m =? SDS_STRING) || (b_dtype m =? SDS_UNICODE) = false) by (unfold SDS_STRING, SDS_UNICODE; lia). rewrite DS.
    destruct (Z.eqb_spec (fixed m) (fixed o)) as [Ef|Ef].
    + assert (t = u) by congruence. subst u. rewrite F2, F4, Z.eqb_refl. reflexivity.
    + rewrite (fixed_num _ _ F1), (fixed_num _ _ F3) in *. cbn [andb negb].
      destruct t, u; try (now elim Ef); reflexivity.
  - destruct (text_fixed _ Tm) as (Fm & Nm & Dm). destruct (text_fixed _ To) as (Fo & No & Do'). unfold compare_types. rewrite Fm, Fo.
    destruct (Z.eqb_spec (b_dtype m) (b_dtype o)) as [E|E].
    + exists m. split.
      * assert (DS : (b_dtype m =? SDS_STRING) || (b_dtype m =? SDS_UNICODE) = true) by (unfold SDS_STRING, SDS_UNICODE; lia). rewrite DS.
        destruct (b_item m =? b_item o); reflexivity.
      * assert (W : wide_enough m o) by (split; [auto|intros _ N; congruence]). destruct (Same W) as [S1 [_ S2]]. split; auto.
    + destruct F as [[F _]|[F1 F2]]; [congruence|]. rewrite F1, F2.
      change (class_eqb (WhichDType SDS_UNICODE) (WhichDType SDS_STRING)) with true. cbv iota. unfold same_class. change (SDS_UNICODE <? SDS_STRING) with false. cbv iota.
      change ((SDS_UNICODE =? SDS_UNICODE) && (SDS_STRING =? SDS_STRING)) with true. cbn [andb negb].
      destruct (Z.ltb_spec (b_item m) (b_item o * 4)) as [L|L].
      * destruct (text_upgrade m 19 (b_item o * 4)) as (U1 & U2 & U3 & U4 & _). { right. split; auto. apply Z.mod_mul. lia. } { pose proof (proj2 To). lia. }
        eexists. split; [reflexivity|]. set (m' := UpgradeType m 19 (b_item o * 4)) in *. change SDS_UNICODE with 19. fold m'.
        destruct (text_fixed _ U1) as (Fm' & _ & _).
        assert (K : forall p, fits m p -> fits m' p). { intros p. apply fits_keep; auto. left. split; [now rewrite U2, F2|lia]. }
        split. { split; auto. rewrite U4. apply Km. } split. { rewrite Fm', U2. reflexivity. } split; auto. split.
        { split. { auto. } intros _ _. lia. }
        split; auto. split. { intros p [P1 P2]. split; auto. intros Tp Np. rewrite U3. rewrite Fm', U2 in Np. rewrite Fm, F2 in P2. change SDS_UNICODE with 19 in P2. specialize (P2 Tp Np). lia. }
        intros [_ W]. exfalso. assert (b_item o * 4 <= b_item m). { apply W; auto. rewrite Fm, Fo. auto. } lia.
      * exists m. split; auto. assert (W : wide_enough m o) by (split; [auto|intros _ _; lia]). destruct (Same W) as [S1 [_ S2]]. split; auto. split; [congruence|auto].
Qed.
Lemma compat_again m o : king_ok m -> b_dims o <> [] -> fits m o ->
  exists m' c, IsArrayCompatible m o false = (m', c) /\ answer m o c /\
    king_ok m' /\ fixed m' = fixed m /\ b_dims m' = b_dims m /\ wide_enough m' o /\ (forall p, fits m p -> fits m' p) /\ (forall p, wide_enough m p -> wide_enough m' p) /\ (wide_enough m o -> m' = m).
Proof.
  intros Km Do F. destruct (compare_again m o Km Do F) as (m' & E & K & E1 & E2 & H). exists m'. unfold IsArrayCompatible. rewrite E.
  assert (N : ndim m' = ndim o). { unfold ndim. rewrite E2. destruct Km as [_ Dm]. destruct F as [Tl _]. destruct (b_dims m), (b_dims o); try congruence. simpl in *. congruence. }
  rewrite N, Z.eqb_refl. cbn [negb andb]. rewrite E2. destruct F as [Tl _]. rewrite <- Tl, same_dims_refl.
  destruct (1 <? ndim o); [destruct (negb (b_c o && b_f o) && negb (Bool.eqb (b_f m') (b_f o)))|]; eexists; (split; [reflexivity|]); (split; [|auto]); split; auto.
Qed.

Definition fits_part (k : block) (p : option part) : Prop := match p with Some (o, _) => b_dims o <> [] /\ fits k o | None => True end.
Definition wide_part (k : block) (p : option part) : Prop := match p with Some (o, _) => b_dims o <> [] /\ wide_enough k o | None => True end.
Definition answer_part (k : block) (p : option part) (c : compat) : Prop := match p with Some (o, _) => answer k o c | None => True end.
Lemma recheck_grow ps : forall m, king_ok m -> Forall (fits_part m) ps ->
  exists m' cs, recheck m ps = (m', cs) /\ king_ok m' /\ fixed m' = fixed m /\ b_dims m' = b_dims m /\ Forall (wide_part m') ps /\
    (forall p, fits m p -> fits m' p) /\ (forall p, wide_enough m p -> wide_enough m' p).
Proof.
  induction ps as [|[[o data]|] ps IH]; intros m Km H; cbn [recheck].
  - exists m, []. auto 8.
  - inversion H as [|x l H0 H2]; subst. destruct H0 as [Do H1]. destruct (compat_again m o Km Do H1) as (m1 & c & E & _ & K1 & F1 & D1 & W1 & G1 & G2 & _). rewrite E.
    destruct (IH m1 K1) as (m' & cs & E' & K' & F' & D' & W' & G1' & G2').
    { eapply Forall_impl; [|exact H2]. intros [[o' d']|]; simpl; auto. intros []. auto. }
    rewrite E'. exists m', (c :: cs). split; auto. split; auto. split; [congruence|]. split; [congruence|]. split; auto. constructor; auto. simpl. auto.
  - inversion H as [|x l _ H2]; subst. destruct (IH m Km H2) as (m' & cs & E' & H'). rewrite E'. exists m', (Cm true false false false :: cs). split; auto.
    destruct H' as (H'1 & H'2 & H'3 & H'4 & H'5). split; auto. split; auto. split; auto. split; auto. constructor; auto. simpl. auto.
Qed.
Lemma recheck_stays ps : forall m, king_ok m -> Forall (wide_part m) ps -> exists cs, recheck m ps = (m, cs) /\ Forall2 (answer_part m) ps cs.
Proof.
  induction ps as [|[[o data]|] ps IH]; intros m Km H; cbn [recheck].
  - exists []. auto.
  - inversion H as [|x l H0 H2]; subst. destruct H0 as [Do H1]. destruct (compat_again m o Km Do (proj1 H1)) as (m1 & c & E & A & _ & _ & _ & _ & _ & _ & S). rewrite E.
    rewrite (S H1) in *. destruct (IH m Km H2) as (cs & -> & F). exists (c :: cs). auto.
  - inversion H as [|x l _ H2]; subst. destruct (IH m Km H2) as (cs & -> & F). exists (Cm true false false false :: cs). split; auto. constructor; auto. simpl. auto.
Qed.
