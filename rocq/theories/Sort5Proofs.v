(** LexSort, partitions and the orders. *)
From Verif Require Import Base Mem MemLemmas Num SortModel SortSpec SortProofs Sort2Proofs Sort4Proofs.
Local Open Scope Z_scope.

(** ** The comparisons are strict weak orders *)
Definition sw_on {E} (P : E -> Prop) (lt : E -> E -> bool) : Prop :=
  (forall x y, P x -> P y -> lt x y = true -> lt y x = false) /\
  (forall x y z, P x -> P y -> P z -> lt x z = true -> lt x y = true \/ lt y z = true).
Lemma sw_on_all {E} (lt : E -> E -> bool) : sw_on (fun _ => True) lt <-> strict_weak lt.
Proof.
  unfold sw_on, strict_weak. split; intros [A B]; split.
  - intros x y. now apply A.
  - intros x y z. now apply B.
  - intros x y _ _. apply A.
  - intros x y z _ _ _. apply B.
Qed.

Lemma int_sw asc : strict_weak (COMPARE_LT_int asc).
Proof. unfold COMPARE_LT_int. split; intros; destruct asc; lia. Qed.
Lemma float_sw asc : strict_weak (COMPARE_LT_float asc).
Proof.
  unfold COMPARE_LT_float. split; destruct asc.
  - intros [| |x|] [| |y|]; simpl; intros; try congruence; auto. lia.
  - intros [| |x|] [| |y|]; simpl; intros; try congruence; auto. lia.
  - intros [| |x|] [| |y|] [| |z|]; simpl; intros; try congruence; auto. lia.
  - intros [| |x|] [| |y|] [| |z|]; simpl; intros; try congruence; auto. lia.
Qed.
Lemma string_sw asc n : sw_on (fun s => length s = n) (STRING_LT asc).
Proof.
  destruct (int_sw asc) as [A B]. split.
  - intros x y Hx Hy. revert x y Hx Hy. induction n as [|n IH]; intros [|c x] [|d y] Hx Hy; try discriminate. cbn [STRING_LT].
    rewrite (Z.eqb_sym d c). destruct (c =? d); auto.
  - intros x y z Hx Hy Hz. revert x y z Hx Hy Hz. induction n as [|n IH]; intros [|c x] [|d y] [|e z] Hx Hy Hz; try discriminate. cbn [STRING_LT].
    injection Hx as Hx. injection Hy as Hy. injection Hz as Hz.
    destruct (Z.eqb_spec c e), (Z.eqb_spec c d), (Z.eqb_spec d e); subst; try congruence; intros H; auto.
    + unfold COMPARE_LT_int. destruct asc; lia.
Qed.
Lemma string_total asc n : forall x y, length x = n -> length y = n -> STRING_LT asc x y = false -> STRING_LT asc y x = false -> x = y.
Proof.
  induction n as [|n IH]; intros [|c x] [|d y] Hx Hy; try discriminate; auto. cbn [STRING_LT]. rewrite (Z.eqb_sym d c).
  injection Hx as Hx. injection Hy as Hy. destruct (Z.eqb_spec c d); intros H1 H2; [subst; f_equal; auto|]. unfold COMPARE_LT_int in *. destruct asc; lia.
Qed.

(* a step on the first k bytes *)
Lemma word_step_sw asc k (P P' : list Z -> Prop) rest : (forall s, P s -> P' (skipn k s)) -> sw_on P' rest -> sw_on P (fun a b => word_step asc k a b rest).
Proof.
  intros HP [RA RB]. destruct (int_sw asc) as [A B]. unfold word_step. split.
  - intros x y Px Py. rewrite (Z.eqb_sym (le_word (firstn k y))). destruct (_ =? _); auto.
  - intros x y z Px Py Pz. destruct (Z.eqb_spec (le_word (firstn k x)) (le_word (firstn k z))), (Z.eqb_spec (le_word (firstn k x)) (le_word (firstn k y))),
      (Z.eqb_spec (le_word (firstn k y)) (le_word (firstn k z))); try congruence; intros H; auto.
    + rewrite e in *. unfold COMPARE_LT_int. destruct asc; lia.
    + rewrite e in H. auto.
    + rewrite e in *. auto.
Qed.
Lemma stop_sw P : sw_on P (fun _ _ : list Z => false).
Proof. split; discriminate. Qed.
Lemma sw_on_ext {E} (P : E -> Prop) f g : (forall x y, P x -> P y -> f x y = g x y) -> sw_on P g -> sw_on P f.
Proof. intros H [A B]. split; intros *; intros; rewrite ?H in *; auto. Qed.
Lemma void_tail_sw asc first n : sw_on (fun s => length s = n) (void_tail asc first).
Proof.
  assert (W : forall a k rest, sw_on (fun _ => True) rest -> sw_on (fun s => length s = n) (fun x y => word_step a k x y rest)) by (intros; apply word_step_sw with (P' := fun _ => True); auto).
  assert (W' : forall a k rest, sw_on (fun _ => True) rest -> sw_on (fun s : list Z => True) (fun x y => word_step a k x y rest)) by (intros; apply word_step_sw with (P' := fun _ => True); auto).
  pose proof (stop_sw (fun _ => True)) as St.
  destruct n as [|[|[|[|[|[|[|[|[|n]]]]]]]]].
  all: match goal with |- sw_on (fun s => length s = ?m) _ => idtac end.
  - eapply sw_on_ext; [|apply stop_sw]. intros x y Hx Hy. unfold void_tail. now rewrite Hx.
  - eapply sw_on_ext; [|apply (W (asc || negb first) 1%nat (fun _ _ => false) St)]. intros x y Hx Hy. unfold void_tail. now rewrite Hx.
  - eapply sw_on_ext; [|apply (W asc 2%nat (fun _ _ => false) St)]. intros x y Hx Hy. unfold void_tail. now rewrite Hx.
  - eapply sw_on_ext; [|apply (W asc 2%nat _ (W' true 1%nat (fun _ _ => false) St))]. intros x y Hx Hy. unfold void_tail. rewrite Hx. cbn [negb]. now rewrite Bool.orb_true_r.
  - eapply sw_on_ext; [|apply (W asc 4%nat (fun _ _ => false) St)]. intros x y Hx Hy. unfold void_tail. now rewrite Hx.
  - eapply sw_on_ext; [|apply (W asc 4%nat _ (W' true 1%nat (fun _ _ => false) St))]. intros x y Hx Hy. unfold void_tail. rewrite Hx. cbn [negb]. now rewrite Bool.orb_true_r.
  - eapply sw_on_ext; [|apply (W asc 4%nat _ (W' asc 2%nat (fun _ _ => false) St))]. intros x y Hx Hy. unfold void_tail. now rewrite Hx.
  - eapply sw_on_ext; [|apply (W asc 4%nat _ (W' asc 2%nat _ (W' true 1%nat (fun _ _ => false) St)))]. intros x y Hx Hy. unfold void_tail. rewrite Hx. cbn [negb]. now rewrite Bool.orb_true_r.
  - eapply sw_on_ext; [|apply (W asc 8%nat (fun _ _ => false) St)]. intros x y Hx Hy. unfold void_tail. now rewrite Hx.
  - eapply sw_on_ext; [|apply stop_sw]. intros x y Hx Hy. unfold void_tail. now rewrite Hx.
Qed.
Lemma void_words_sw asc k : forall n, sw_on (fun s => length s = n) (void_words asc k).
Proof.
  induction k as [|k IH]; intros n; [apply void_tail_sw|]. cbn [void_words].
  apply word_step_sw with (P' := fun s => length s = (n - 8)%nat); [|apply IH]. intros s <-. apply skipn_length.
Qed.
Lemma void_sw asc n : sw_on (fun s => length s = n) (VOID_LT asc).
Proof.
  destruct (n <=? 8)%nat eqn:H.
  - eapply sw_on_ext; [|apply (void_tail_sw asc true n)]. intros x y Hx Hy. unfold VOID_LT. now rewrite Hx, H.
  - eapply sw_on_ext; [|apply (void_words_sw asc ((n - 1) / 8) n)]. intros x y Hx Hy. unfold VOID_LT. now rewrite Hx, H.
Qed.

Lemma by_value_sw {T} (P : T -> Prop) d lt (v : list T) : sw_on P lt -> P d -> Forall P v -> strict_weak (by_value d lt v).
Proof.
  intros [A B] Hd Hv. assert (N : forall i, P (nth (Z.to_nat i) v d)).
  { intros i. rewrite Forall_forall in Hv. destruct (nth_in_or_default (Z.to_nat i) v d) as [H|H]; [auto|congruence]. }
  unfold by_value. split; intros; auto.
Qed.
Lemma at_index_ok {T} (d : T) lt v rows : (forall i, In i rows -> 0 <= i < Z.of_nat (length v)) -> compares (by_value d lt v) (at_index lt v) rows.
Proof.
  intros H i j Hi Hj. apply H in Hi, Hj. unfold at_index, by_value. rewrite !zrd_some by lia.
  rewrite !(nth_error_nth' v d) by lia. auto.
Qed.

(** ** Sorting by one order and then by another *)
Section Lex.
  Context {E : Type} (p q : E -> E -> bool) (Hp : strict_weak p) (Hq : strict_weak q).
  Definition then_by (x y : E) : bool := p x y || (negb (p y x) && q x y).
  Lemma then_sw : strict_weak then_by.
  Proof.
    unfold then_by. split.
    - intros x y. destruct (p x y) eqn:A; cbn [orb].
      + intros _. rewrite (lt_asym _ Hp _ _ A). auto.
      + destruct (p y x) eqn:B; cbn [orb negb andb]; [discriminate|]. apply (lt_asym _ Hq).
    - intros x y z. destruct (p x z) eqn:A; cbn [orb].
      + intros _. destruct (lt_neg _ Hp x y z A) as [-> | ->]; auto.
      + destruct (p z x) eqn:B; cbn [orb negb andb]; [discriminate|]. intros C.
        destruct (p x y) eqn:D; auto. destruct (p y z) eqn:F; auto. cbn [orb].
        destruct (p y x) eqn:G. { exfalso. destruct (lt_neg _ Hp y z x G); congruence. }
        destruct (p z y) eqn:H. { exfalso. destruct (lt_neg _ Hp z x y H); congruence. }
        cbn [negb andb]. destruct (lt_neg _ Hq x y z C); auto.
  Qed.
  Lemma then_eqv x y : eqv then_by x y = eqv p x y && eqv q x y.
  Proof. clear. unfold eqv, then_by. destruct (p x y), (p y x), (q x y), (q y x); auto. Qed.

  Lemma filter_and {A} (f g : A -> bool) l : filter (fun x => f x && g x) l = filter f (filter g l).
  Proof. clear. induction l as [|x l IH]; auto. simpl. destruct (g x) eqn:G, (f x) eqn:F; simpl; rewrite ?F, ?G, IH; auto. Qed.
  Lemma filter_comm {A} (f g : A -> bool) l : filter f (filter g l) = filter g (filter f l).
  Proof. clear. induction l as [|x l IH]; auto. simpl. destruct (g x) eqn:G, (f x) eqn:F; simpl; rewrite ?F, ?G, IH; auto. Qed.

  Lemma SS_filter f (l : list E) : SS q l -> SS q (filter f l).
  Proof.
    clear. induction l as [|x l IH]; intros H; [constructor|]. inversion H as [|? ? H1 H2]; subst. simpl. destruct (f x); auto.
    constructor; [now apply IH|]. apply Forall_forall. rewrite Forall_forall in H2. intros y Hy. apply filter_In in Hy. apply H2, Hy.
  Qed.
  Lemma then_SS r : SS p r -> (forall x, SS q (filter (eqv p x) r)) -> SS then_by r.
  Proof.
    induction r as [|x r IH]; intros H1 H2; [constructor|]. inversion H1 as [|? ? H3 H4]; subst. constructor.
    - apply IH; auto. intros y. specialize (H2 y). simpl in H2. destruct (eqv p y x); auto. now inversion H2.
    - rewrite Forall_forall in *. intros y Hy. specialize (H4 y Hy). simpl in H4. unfold then_by. rewrite H4. cbn [orb].
      destruct (p x y) eqn:A; cbn [negb andb]; auto. specialize (H2 x). simpl in H2. rewrite eqv_refl in H2 by auto.
      inversion H2 as [|? ? _ H5]; subst. rewrite Forall_forall in H5. apply H5. apply filter_In. split; auto. unfold eqv. now rewrite A, H4.
  Qed.
  Lemma then_stable a b r : stable_sort q a b -> stable_sort p b r -> stable_sort then_by a r.
  Proof.
    intros (P1 & S1 & F1) (P2 & S2 & F2). split; [eapply perm_trans; eauto|]. split.
    - apply SS_sorted. apply then_SS; [now apply SS_sorted|]. intros x. rewrite F2. apply SS_filter. now apply SS_sorted.
    - intros x. rewrite !(filter_ext _ _ (then_eqv x)), !filter_and. rewrite filter_comm, F2, filter_comm, F1. auto.
  Qed.
End Lex.

Lemma stable_ext {E} (f g : E -> E -> bool) a b : (forall x y, f x y = g x y) -> stable_sort f a b -> stable_sort g a b.
Proof.
  intros H (P & S & F). split; auto. split.
  - intros i j x y Hij Hx Hy. rewrite <- H. eapply S; eauto.
  - intros x. rewrite <- (filter_ext (eqv f x)), F; [|intros y; unfold eqv; now rewrite !H]. apply filter_ext. intros y. unfold eqv. now rewrite !H.
Qed.

Lemma lex_sw lts : Forall strict_weak lts -> strict_weak (lex_lt lts).
Proof.
  induction 1 as [|lt lts H1 H2 IH]; [split; discriminate|]. apply (then_sw (lex_lt lts) lt IH H1).
Qed.

(* the loop over the columns *)
Lemma lex_loop_ok (f : list nat -> column -> list Z -> option (list Z)) rows : forall cols lts ts a r,
  columns_ok rows cols lts -> (forall x, In x a -> In x rows) ->
  (forall t c lt a r, strict_weak lt -> compares lt (c_lt c) rows -> (forall x, In x a -> In x rows) -> f t c a = Some r -> stable_sort lt a r) ->
  lex_loop f ts cols a = Some r -> stable_sort (lex_lt lts) a r.
Proof.
  intros cols lts ts a r H. revert ts a r. induction H as [|c lt cols lts [H1 H2] H3 IH]; intros ts a r Ha Hf Hr.
  - injection Hr as <-. split; auto. split; [intros i j x y _ _ _; auto|auto].
  - cbn [lex_loop] in Hr. destruct (f (hd [] ts) c a) as [b|] eqn:Eb; [|discriminate].
    pose proof (Hf _ _ _ _ _ H1 H2 Ha Eb) as Sb. assert (Hb : forall x, In x b -> In x rows) by (intros x Hx; apply Ha; now apply (stable_in _ _ _ Sb)).
    specialize (IH (tl ts) b r Hb Hf Hr). cbn [lex_lt].
    apply (then_stable (lex_lt lts) lt) with (b := b); auto. apply lex_sw. clear -H3. induction H3; constructor; tauto.
Qed.

Lemma par_amergesort_ok threading ts junk c lt a r : strict_weak lt -> compares lt (c_lt c) a -> (length a <= length junk)%nat ->
  par_amergesort threading ts junk c a = Some r -> stable_sort lt a r.
Proof.
  intros sw Hc Hj. unfold par_amergesort. set (n := Z.of_nat (length a)).
  destruct (n <? BIG).
  - destruct (mergesort_ok (c_lt c) lt sw (c_check c) junk a [] [] 0 n) as (r' & E1 & S1); auto. rewrite app_nil_l, app_nil_r in E1. rewrite E1. intros [= <-].
    now rewrite app_nil_r.
  - assert (Lw : length (firstn (length a) junk) = length a) by (rewrite firstn_length; lia).
    destruct threading.
    + destruct (par_run _ _ _ _ _ ts) as [s|] eqn:E1; [|discriminate]. destruct (forallb is_fin (ps_pc s)) eqn:F; [|discriminate]. intros [= <-].
      eapply par_sorts; eauto.
    + destruct (mergesort0_ok (c_lt c) lt sw (c_check c) (S (Z.to_nat n)) a [] [] [] (firstn (length a) junk) [] 0 0 n) as (r' & w' & E1 & S1 & _); auto; try lia.
      rewrite !app_nil_l, !app_nil_r in E1. rewrite E1. intros [= <-]. auto.
Qed.
Lemma par_amergesort_total junk c lt a : strict_weak lt -> compares lt (c_lt c) a -> (length a <= length junk)%nat ->
  exists r, par_amergesort false [] junk c a = Some r.
Proof.
  intros sw Hc Hj. unfold par_amergesort. set (n := Z.of_nat (length a)). destruct (n <? BIG).
  - destruct (mergesort_ok (c_lt c) lt sw (c_check c) junk a [] [] 0 n) as (r' & E1 & S1); auto. rewrite app_nil_l, app_nil_r in E1. rewrite E1. eauto.
  - assert (Lw : length (firstn (length a) junk) = length a) by (rewrite firstn_length; lia).
    destruct (mergesort0_ok (c_lt c) lt sw (c_check c) (S (Z.to_nat n)) a [] [] [] (firstn (length a) junk) [] 0 0 n) as (r' & w' & E1 & S1 & _); auto; try lia.
    rewrite !app_nil_l, !app_nil_r in E1. rewrite E1. eauto.
Qed.

(** rows in their order *)
Lemma arange_nth n i : nth_error (arange n) i = if (i <? Z.to_nat n)%nat then Some (Z.of_nat i) else None.
Proof. unfold arange. rewrite nth_error_map, nth_error_seq. destruct (i <? Z.to_nat n)%nat; auto. Qed.
Lemma arange_length n : length (arange n) = Z.to_nat n.
Proof. unfold arange. now rewrite map_length, seq_length. Qed.
Lemma arange_In n x : In x (arange n) <-> 0 <= x < n.
Proof. unfold arange. rewrite in_map_iff. split; [intros (k & <- & Hk); apply in_seq in Hk; lia|]. intros H. exists (Z.to_nat x). rewrite in_seq. lia. Qed.
Lemma arange_NoDup n : NoDup (arange n).
Proof. unfold arange. apply FinFun.Injective_map_NoDup; [intros x y; lia|apply seq_NoDup]. Qed.
Lemma ltb_sw : strict_weak Z.ltb.
Proof. split; intros; lia. Qed.

Lemma argsort_ok lt n r : strict_weak lt -> stable_sort lt (arange n) r -> argsort lt n r.
Proof.
  intros sw H. assert (H0 : stable_sort Z.ltb (arange n) (arange n)).
  { split; auto. split; auto. intros i j x y Hij. rewrite !arange_nth. destruct (i <? _)%nat, (j <? _)%nat; try discriminate. intros [= <-] [= <-]. lia. }
  pose proof (then_stable lt Z.ltb sw _ _ _ H0 H) as (P & S & _). split; [now apply Permutation_sym|].
  intros i j x y Hij Hx Hy. specialize (S i j x y Hij Hx Hy). unfold then_by in S.
  assert (x <> y). { intros ->. assert (ND : NoDup r) by (eapply Permutation_NoDup; [exact P|apply arange_NoDup]). rewrite NoDup_nth_error in ND.
    assert (i = j); [|lia]. apply ND; [eapply nth_error_Some_lt; eauto|congruence]. }
  destruct (lt y x); [discriminate|]. destruct (lt x y); auto. right. split; auto. cbn [orb negb andb] in S. lia.
Qed.

Lemma LexSort_ok threading ts junk n cols lts r : 0 <= n -> columns_ok (arange n) cols lts -> (Z.to_nat n <= length junk)%nat ->
  LexSort threading ts junk n None cols = Some r -> argsort (lex_lt lts) n r.
Proof.
  intros Hn Hc Hj H. apply argsort_ok.
  - apply lex_sw. clear -Hc. induction Hc; constructor; tauto.
  - unfold LexSort in H.
    assert (G : forall cols lts ts a r, columns_ok (arange n) cols lts -> (forall x, In x a -> In x (arange n)) -> length a = Z.to_nat n ->
      lex_loop (fun ts0 => par_amergesort threading ts0 junk) ts cols a = Some r -> stable_sort (lex_lt lts) a r); [|eapply G; eauto; apply arange_length].
    clear -Hj. intros cols lts ts a r H. revert ts a r. induction H as [|c lt cols lts [H1 H2] H3 IH]; intros ts a r Ha La Hr.
    + injection Hr as <-. split; auto. split; [intros i j x y _ _ _; auto|auto].
    + cbn [lex_loop] in Hr. destruct (par_amergesort _ _ _ c a) as [b|] eqn:Eb; [|discriminate].
      assert (Sb : stable_sort lt a b). { eapply par_amergesort_ok; [exact H1|eapply compares_sub; eauto| |exact Eb]. lia. }
      assert (Hb : forall x, In x b -> In x (arange n)) by (intros x Hx; apply Ha; now apply (stable_in _ _ _ Sb)).
      specialize (IH (tl ts) b r Hb ltac:(rewrite (stable_length _ _ _ Sb); auto) Hr). cbn [lex_lt].
      apply (then_stable (lex_lt lts) lt) with (b := b); auto. apply lex_sw. clear -H3. induction H3; constructor; tauto.
Qed.
(* with index=: the rows of the index *)
Lemma LexSort_index_ok threading ts junk n index cols lts r : columns_ok index cols lts -> (length index <= length junk)%nat ->
  LexSort threading ts junk n (Some index) cols = Some r -> stable_sort (lex_lt lts) index r.
Proof.
  intros Hc Hj H. unfold LexSort in H.
  assert (G : forall cols lts ts a r, columns_ok index cols lts -> (forall x, In x a -> In x index) -> length a = length index ->
      lex_loop (fun ts0 => par_amergesort threading ts0 junk) ts cols a = Some r -> stable_sort (lex_lt lts) a r); [|eapply G; eauto].
  clear -Hj. intros cols lts ts a r H. revert ts a r. induction H as [|c lt cols lts [H1 H2] H3 IH]; intros ts a r Ha La Hr.
  - injection Hr as <-. split; auto. split; [intros i j x y _ _ _; auto|auto].
  - cbn [lex_loop] in Hr. destruct (par_amergesort _ _ _ c a) as [b|] eqn:Eb; [|discriminate].
    assert (Sb : stable_sort lt a b). { eapply par_amergesort_ok; [exact H1|eapply compares_sub; eauto| |exact Eb]. lia. }
    assert (Hb : forall x, In x b -> In x index) by (intros x Hx; apply Ha; now apply (stable_in _ _ _ Sb)).
    specialize (IH (tl ts) b r Hb ltac:(rewrite (stable_length _ _ _ Sb); auto) Hr). cbn [lex_lt].
    apply (then_stable (lex_lt lts) lt) with (b := b); auto. apply lex_sw. clear -H3. induction H3; constructor; tauto.
Qed.
