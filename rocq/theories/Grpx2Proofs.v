(** Proofs about first, last, nth, median, mode, quantile and the trimmed mean. *)
From Verif Require Import Base Mem MemLemmas Num GroupModel GroupSpec GroupProofs AccumSpec GrpxModel GrpxSpec GrpxProofs.
Local Open Scope Z_scope.

(** ** Sorting *)
Section Order.
  Context {T : Type} (lt : T -> T -> bool) (ok : T -> bool).
  Hypothesis Hlt : order_ok ok lt.
  Notation le a b := (lt b a = false).
  Notation oks l := (forall x, In x l -> ok x = true).
  Notation SS := (StronglySorted (fun a b => lt b a = false)).

  Lemma insert_perm x l : Permutation (x :: l) (insert lt x l).
  Proof.
    clear Hlt ok. induction l as [|y l IH]; simpl; auto. destruct (lt y x); auto. rewrite perm_swap. now constructor.
  Qed.
  Lemma isort_perm l : Permutation l (isort lt l).
  Proof. clear Hlt ok. induction l as [|x l IH]; simpl; auto. rewrite <- insert_perm. now constructor. Qed.

  Lemma le_trans a b c : ok a = true -> ok b = true -> ok c = true -> le a b -> le b c -> le a c.
  Proof. destruct Hlt as (_ & _ & H). intros. apply (H c b a); auto. Qed.
  Lemma lt_le a b : lt a b = true -> le a b.
  Proof. destruct Hlt as (I & Tr & _). intros H. destruct (lt b a) eqn:E; auto. rewrite <- (I a). symmetry. eauto. Qed.

  Lemma insert_sorted x l : ok x = true -> oks l -> SS l -> SS (insert lt x l).
  Proof.
    intros Hx Hl S. induction S as [|y l S IH F]; simpl; [repeat constructor|].
    assert (Hy : ok y = true) by (apply Hl; now left). assert (Hl' : oks l) by (intros; apply Hl; now right).
    destruct (lt y x) eqn:E.
    - constructor; auto. rewrite Forall_forall in *. intros z Hz. apply (Permutation_in _ (Permutation_sym (insert_perm x l))) in Hz.
      destruct Hz as [<-|Hz]; auto. now apply lt_le.
    - constructor; [constructor; auto|]. constructor; auto. rewrite Forall_forall in *. intros z Hz.
      apply le_trans with y; auto.
  Qed.
  Lemma isort_oks l : oks l -> oks (isort lt l).
  Proof. intros H x Hx. apply H. eapply Permutation_in; [symmetry; apply isort_perm|exact Hx]. Qed.
  Lemma isort_sorted l : oks l -> SS (isort lt l).
  Proof.
    induction l as [|x l IH]; simpl; intros H; [constructor|].
    apply insert_sorted; auto. apply isort_oks; auto.
  Qed.
  Lemma isort_of l : oks l -> sorted_of lt l (isort lt l).
  Proof. intros H. split; [apply isort_perm|now apply isort_sorted]. Qed.

  Lemma sorted_app (a b : list T) : SS a -> SS b -> (forall x y, In x a -> In y b -> le x y) -> SS (a ++ b).
  Proof.
    clear Hlt. intros Sa Sb H. induction Sa as [|x a Sa IH F]; simpl; auto. constructor.
    - apply IH. intros. apply H; simpl; auto.
    - rewrite Forall_app. split; auto. apply Forall_forall. intros y Hy. apply H; simpl; auto.
  Qed.

  Lemma sorted_app_inv (a b : list T) : SS (a ++ b) -> SS a /\ SS b /\ (forall x y, In x a -> In y b -> le x y).
  Proof.
    clear Hlt. induction a as [|x a IH]; simpl; intros S; [repeat split; auto; [constructor|tauto]|].
    inversion S as [|? ? S' F]; subst. destruct (IH S') as (A & B & C). rewrite Forall_app in F. destruct F as [F1 F2]. rewrite Forall_forall in F2.
    repeat split; auto; [now constructor|]. intros u v [<-|Hu] Hv; auto.
  Qed.

  Lemma max_element_spec l : forall b, In (max_element lt b l) (b :: l) /\ (oks (b :: l) -> forall x, In x (b :: l) -> le x (max_element lt b l)).
  Proof.
    induction l as [|y l IH]; intros b; cbn [max_element].
    - split; [now left|]. intros _ x [<-|[]]. apply Hlt.
    - destruct (lt b y) eqn:E.
      + destruct (IH y) as [Hi Hm]. split; [simpl in *; tauto|]. intros Ho x Hx.
        assert (Hm' := Hm ltac:(intros; apply Ho; simpl in *; tauto)).
        assert (Hin : ok (max_element lt y l) = true) by (apply Ho; simpl in *; tauto).
        destruct Hx as [<-|Hx]; [|auto]. apply le_trans with y; auto; try (apply Ho; simpl; tauto).
        * now apply lt_le.
        * apply Hm'. now left.
      + destruct (IH b) as [Hi Hm]. split; [simpl in *; tauto|]. intros Ho x Hx.
        assert (Hm' := Hm ltac:(intros; apply Ho; simpl in *; tauto)).
        assert (Hin : ok (max_element lt b l) = true) by (apply Ho; simpl in *; tauto).
        destruct Hx as [<-|[<-|Hx]]; [apply Hm'; now left| |apply Hm'; now right].
        apply le_trans with b; auto; try (apply Ho; simpl; tauto). apply Hm'. now left.
  Qed.

  Context (nthel : list T -> nat -> list T).
  Hypothesis Hnth : nth_elements lt ok nthel.

  (** the chosen element is the order statistic, and the greatest element before it the previous one *)
  Lemma nthel_stat l k : (k < length l)%nat -> oks l ->
    Permutation l (nthel l k) /\ exists m, nth_error (nthel l k) k = Some m /\ order_stat lt l k m.
  Proof.
    intros Hk Ho. destruct (Hnth l k Hk (proj2 (forallb_forall ok l) Ho)) as (P & a & m & b & E & La & Ha & Hb). split; auto.
    assert (Op : oks (a ++ m :: b)) by (rewrite <- E; intros x Hx; apply Ho; eapply Permutation_in; [symmetry; exact P|exact Hx]).
    exists m. rewrite E. split; [rewrite nth_error_app2, La, Nat.sub_diag by lia; reflexivity|].
    exists (isort lt a ++ m :: isort lt b). split; [split|].
    - rewrite P, E. apply Permutation_app; [apply isort_perm|]. constructor. apply isort_perm.
    - assert (oks a /\ ok m = true /\ oks b) as (Oa & Om & Ob).
      { repeat split; [intros; apply Op; apply in_or_app; auto|apply Op; apply in_or_app; right; now left|intros; apply Op; apply in_or_app; right; now right]. }
      assert (Ia : forall x, In x (isort lt a) -> In x a) by (intros x; apply Permutation_in; symmetry; apply isort_perm).
      assert (Ib : forall x, In x (isort lt b) -> In x b) by (intros x; apply Permutation_in; symmetry; apply isort_perm).
      apply sorted_app; [now apply isort_sorted| |].
      + constructor; [now apply isort_sorted|]. apply Forall_forall. intros x Hx. apply Hb. auto.
      + intros x y Hx [<-|Hy]; [apply Ha; auto|]. apply le_trans with m; auto.
    - assert (L : length (isort lt a) = k) by (rewrite <- La; apply Permutation_length; symmetry; apply isort_perm).
      rewrite nth_error_app2 by lia. now rewrite L, Nat.sub_diag.
  Qed.

  Lemma nthel_two l k : (0 < k < length l)%nat -> oks l -> exists m b bs, nth_error (nthel l k) k = Some m /\ firstn k (nthel l k) = b :: bs /\
    exists s, sorted_of lt l s /\ nth_error s k = Some m /\ nth_error s (k - 1) = Some (max_element lt b bs).
  Proof.
    intros Hk Ho. destruct (Hnth l k ltac:(lia) (proj2 (forallb_forall ok l) Ho)) as (P & a & m & b & E & La & Ha & Hb).
    assert (Op : oks (a ++ m :: b)) by (rewrite <- E; intros x Hx; apply Ho; eapply Permutation_in; [symmetry; exact P|exact Hx]).
    destruct a as [|a0 a]; [simpl in La; lia|].
    exists m, a0, a. rewrite E. split; [rewrite nth_error_app2, La, Nat.sub_diag by lia; reflexivity|].
    split; [rewrite firstn_app, La, Nat.sub_diag; simpl firstn at 2; rewrite app_nil_r, <- La; apply firstn_all|].
    destruct (max_element_spec a a0) as [Hi Hm]. set (mx := max_element lt a0 a) in *.
    destruct (in_split _ _ Hi) as (l1 & l2 & El).
    assert (Pa : Permutation (a0 :: a) (mx :: l1 ++ l2)) by (rewrite El; symmetry; apply Permutation_middle).
    assert (oks (a0 :: a) /\ ok m = true /\ oks b) as (Oa & Om & Ob).
    { repeat split; [intros; apply Op; apply in_or_app; auto|apply Op; apply in_or_app; right; now left|intros; apply Op; apply in_or_app; right; now right]. }
    assert (Omx : ok mx = true) by auto.
    clear El. set (c := l1 ++ l2) in *.
    assert (Oc : oks c) by (intros x Hx; apply Oa; eapply Permutation_in; [symmetry; exact Pa|now right]).
    assert (Ia : forall x, In x (isort lt c) -> In x (a0 :: a)).
    { intros x Hx. eapply Permutation_in; [symmetry; exact Pa|]. right. eapply Permutation_in; [symmetry; apply isort_perm|exact Hx]. }
    assert (Ib : forall x, In x (isort lt b) -> In x b) by (intros x; apply Permutation_in; symmetry; apply isort_perm).
    assert (Lc : length (isort lt c) = (k - 1)%nat).
    { pose proof (Permutation_length (isort_perm c)) as H. pose proof (Permutation_length Pa) as Lp. simpl in Lp, La. rewrite <- H. lia. }
    exists (isort lt c ++ mx :: m :: isort lt b). split; [split|split].
    - rewrite P, E. replace (isort lt c ++ mx :: m :: isort lt b) with ((isort lt c ++ [mx]) ++ m :: isort lt b) by now rewrite <- app_assoc.
      apply Permutation_app; [|constructor; apply isort_perm].
      rewrite Pa. rewrite <- (isort_perm c). rewrite Permutation_app_comm. reflexivity.
    - apply sorted_app; [now apply isort_sorted| |].
      + constructor; [constructor; [now apply isort_sorted|]|].
        * apply Forall_forall. intros x Hx. apply Hb. auto.
        * constructor; [apply Ha; auto|]. apply Forall_forall. intros x Hx. apply le_trans with m; auto.
      + intros x y Hx [<-|[<-|Hy]]; [apply Hm; auto|apply Ha; auto|]. apply le_trans with m; auto.
    - rewrite nth_error_app2 by lia. rewrite Lc. now replace (k - (k - 1))%nat with 1%nat by lia.
    - rewrite nth_error_app2 by lia. now rewrite Lc, Nat.sub_diag.
  Qed.

  (** order statistics are ordered *)
  Lemma sorted_stat_le s i a : SS s -> nth_error s i = Some a ->
    (forall x, In x (firstn i s) -> le x a) /\ (forall x, In x (skipn (S i) s) -> le a x).
  Proof.
    clear Hlt Hnth. intros S E. pose proof (nth_error_split s i E) as (l1 & l2 & -> & L).
    apply sorted_app_inv in S as (_ & S2 & H). inversion S2 as [|? ? _ F]; subst. rewrite Forall_forall in F. split; intros x Hx.
    - rewrite firstn_app, Nat.sub_diag, firstn_all in Hx. simpl in Hx. rewrite app_nil_r in Hx. apply H; simpl; auto.
    - apply F. replace (Datatypes.S (length l1)) with (length l1 + 1)%nat in Hx by lia.
      rewrite skipn_app, skipn_all2 in Hx by lia. replace (length l1 + 1 - length l1)%nat with 1%nat in Hx by lia. exact Hx.
  Qed.

  Lemma countb_perm (f : T -> bool) l l' : Permutation l l' -> countb f l = countb f l'.
  Proof. clear. induction 1; simpl; try lia. Qed.

  Lemma countb_all (f : T -> bool) l : (forall x, In x l -> f x = true) -> countb f l = length l.
  Proof. clear. induction l as [|x l IH]; simpl; intros H; auto. rewrite (H x), IH; auto. Qed.

  Lemma stat_le l i j a b : oks l -> (i < j)%nat -> order_stat lt l i a -> order_stat lt l j b -> le a b.
  Proof.
    intros Ho Hij (s1 & (P1 & S1) & E1) (s2 & (P2 & S2) & E2). destruct (lt b a) eqn:E; auto. exfalso.
    (* fewer than i+1 elements are below a, at least j+1 are *)
    assert (O1 : oks s1) by (intros x Hx; apply Ho; eapply Permutation_in; [symmetry; exact P1|exact Hx]).
    assert (O2 : oks s2) by (intros x Hx; apply Ho; eapply Permutation_in; [symmetry; exact P2|exact Hx]).
    assert (Oa : ok a = true) by (apply O1; eapply nth_error_In; eauto).
    assert (Ob : ok b = true) by (apply O2; eapply nth_error_In; eauto).
    assert (C1 : (countb (fun x => lt x a) s1 <= i)%nat).
    { destruct (sorted_stat_le s1 i a S1 E1) as [_ H]. rewrite <- (firstn_skipn i s1), countb_app.
      assert (Z0 : countb (fun x => lt x a) (skipn i s1) = 0%nat).
      { apply countb_zero. intros k x Hx. rewrite nth_error_skipn in Hx. destruct k as [|k].
        - rewrite Nat.add_0_r, E1 in Hx. inversion Hx; subst. apply Hlt.
        - apply H. replace (i + S k)%nat with (S i + k)%nat in Hx by lia. rewrite <- nth_error_skipn in Hx. eapply nth_error_In; eauto. }
      rewrite Z0. pose proof (countb_le_length (fun x => lt x a) (firstn i s1)) as H1. rewrite firstn_length in H1. lia. }
    assert (C2 : (S j <= countb (fun x => lt x a) s2)%nat).
    { destruct (sorted_stat_le s2 j b S2 E2) as [H _]. rewrite <- (firstn_skipn (S j) s2), countb_app.
      rewrite (countb_all _ (firstn (S j) s2)).
      - rewrite firstn_length. apply nth_error_Some_lt in E2. lia.
      - intros x Hx. rewrite (firstn_S_snoc _ _ _ E2) in Hx. apply in_app_or in Hx as [Hx|[<-|[]]]; auto.
        assert (ok x = true). { apply O2. rewrite <- (firstn_skipn j s2). apply in_or_app; auto. }
        specialize (H x Hx). destruct (lt x a) eqn:Ex; auto. rewrite <- E. symmetry. eapply le_trans; [| | |exact Ex|exact H]; auto. }
    assert (Q : Permutation s1 s2) by (now rewrite <- P1).
    rewrite (countb_perm _ _ _ Q) in C1. lia.
  Qed.
End Order.

Section Picks.
  Context {T U : Type} (n : Z) (keys : list Z) (src : list T) (ncount igroup ifirst : list Z) (uinv : U) (conv : T -> U).
  Hypothesis lay : layout n keys src ncount igroup ifirst.
  Notation vals g := (group_vals (combine keys src) g).

  Lemma nth_bin k g : 0 <= g < n -> AccumNth src igroup ifirst ncount uinv conv k g = Some [(g, or_inv uinv conv (py_nth k (vals g)))].
  Proof.
    intros Hg. destruct (layout_bin n keys src ncount igroup ifirst lay g Hg) as (f & Ef & Ec & F0 & Fb & Hr & Hs).
    unfold AccumNth, py_nth. rewrite Ec, Ef. rewrite (vals_len n keys src ncount igroup ifirst lay).
    set (c := length (rows_with keys g)) in *. set (i := if 0 <=? k then k else Z.of_nat c + k).
    destruct (Z.ltb_spec 0 (Z.of_nat c)), (Z.leb_spec 0 i), (Z.ltb_spec i (Z.of_nat c)); cbn [andb or_inv]; try reflexivity.
    - replace (f + i) with (f + Z.of_nat (Z.to_nat i)) by lia. rewrite Hs by lia.
      destruct (nth_error (vals g) (Z.to_nat i)) eqn:E; auto. apply nth_error_None in E.
      rewrite (vals_len n keys src ncount igroup ifirst lay) in E. lia.
    - destruct (nth_error (vals g) (Z.to_nat i)) eqn:E; auto. apply nth_error_Some_lt in E.
      rewrite (vals_len n keys src ncount igroup ifirst lay) in E. lia.
    - lia.
    - destruct (nth_error (vals g) (Z.to_nat i)) eqn:E; auto. apply nth_error_Some_lt in E.
      rewrite (vals_len n keys src ncount igroup ifirst lay) in E. lia.
  Qed.

  Lemma first_bin g : 0 <= g < n -> AccumFirst src igroup ifirst ncount uinv conv g = Some [(g, or_inv uinv conv (hd_error (vals g)))].
  Proof.
    intros Hg. destruct (layout_bin n keys src ncount igroup ifirst lay g Hg) as (f & Ef & Ec & F0 & Fb & Hr & Hs).
    unfold AccumFirst. rewrite Ec, Ef. pose proof (vals_len n keys src ncount igroup ifirst lay g) as L.
    destruct (vals g) as [|x l] eqn:E; simpl in L.
    - destruct (Z.ltb_spec 0 (Z.of_nat (length (rows_with keys g)))); [lia|reflexivity].
    - destruct (Z.ltb_spec 0 (Z.of_nat (length (rows_with keys g)))); [|lia].
      specialize (Hs 0%nat ltac:(lia)). rewrite Z.add_0_r in Hs. rewrite Hs. reflexivity.
  Qed.

  Lemma last_bin g : 0 <= g < n -> AccumLast src igroup ifirst ncount uinv conv g = Some [(g, or_inv uinv conv (hd_error (rev (vals g))))].
  Proof.
    intros Hg. destruct (layout_bin n keys src ncount igroup ifirst lay g Hg) as (f & Ef & Ec & F0 & Fb & Hr & Hs).
    unfold AccumLast. rewrite Ec, Ef. pose proof (vals_len n keys src ncount igroup ifirst lay g) as L.
    destruct (vals g) as [|x l _] eqn:E using rev_ind.
    - simpl in L. destruct (Z.ltb_spec 0 (Z.of_nat (length (rows_with keys g)))); [lia|reflexivity].
    - rewrite app_length in L. simpl in L. destruct (Z.ltb_spec 0 (Z.of_nat (length (rows_with keys g)))); [|lia].
      specialize (Hs (length l) ltac:(lia)).
      replace (f + Z.of_nat (length (rows_with keys g)) - 1) with (f + Z.of_nat (length l)) by lia. rewrite Hs.
      rewrite nth_error_app2, Nat.sub_diag by lia. rewrite rev_app_distr. reflexivity.
  Qed.

  Lemma on_group_bin h g : 0 <= g < n -> (vals g = [] \/ exists r, h (vals g) = Some r) ->
    on_group src igroup ifirst ncount uinv h g = Some [(g, match vals g with [] => uinv | _ => match h (vals g) with Some r => r | None => uinv end end)].
  Proof.
    intros Hg Hh. destruct (layout_bin n keys src ncount igroup ifirst lay g Hg) as (f & Ef & Ec & F0 & Fb & Hr & Hs).
    unfold on_group. rewrite Ec, Ef. pose proof (vals_len n keys src ncount igroup ifirst lay g) as L.
    destruct (Z.eqb_spec (Z.of_nat (length (rows_with keys g))) 0).
    - destruct (vals g) eqn:E; [reflexivity|simpl in L; lia].
    - rewrite Nat2Z.id, (copy_group_spec n keys src ncount igroup ifirst lay g f Hs).
      destruct Hh as [Hh|(r & Hr')]; [rewrite Hh in L; simpl in L; lia|]. rewrite Hr'.
      destruct (vals g); auto. simpl in L; lia.
  Qed.
End Picks.

Section Medians.
  Context {T U : Type} (lt eq : T -> T -> bool) (ok : T -> bool) (uinv : U) (conv : T -> U) (qsort : list T -> list T) (len : nat).
  Hypothesis Heq : forall x, eq x x = ok x.
  Hypothesis Hsort : sorts len (compare_lt lt ok) qsort.

  Lemma strip_end_app a b : (forall x, In x a -> ok x = false) -> strip_end eq (a ++ b) = strip_end eq b.
  Proof. induction a as [|x a IH]; simpl; intros H; auto. rewrite Heq, (H x) by auto. apply IH. auto. Qed.

  Lemma sorted_valid_first s : StronglySorted (fun a b => compare_lt lt ok b a = false) s ->
    s = filter ok s ++ filter (fun x => negb (ok x)) s.
  Proof.
    clear Hsort Heq. induction 1 as [|x s S IH F]; auto. cbn [filter]. destruct (ok x) eqn:E; cbn [negb]; [simpl; f_equal; exact IH|].
    assert (N : filter ok s = []).
    { rewrite Forall_forall in F. destruct (filter ok s) as [|y l] eqn:Ef; auto.
      assert (Hy : In y (filter ok s)) by (rewrite Ef; now left). apply filter_In in Hy as [Hy Hk].
      specialize (F y Hy). unfold compare_lt in F. rewrite E, Hk in F. rewrite orb_true_r in F. discriminate. }
    rewrite N in *. simpl in *. f_equal. exact IH.
  Qed.

  Lemma strip_sorted l : (length l <= len)%nat -> exists s, strip_back eq (qsort l) = s /\ sorted_of lt (filter ok l) s /\ forall x, In x s -> ok x = true.
  Proof.
    intros Hlen. destruct (Hsort l Hlen) as [P S]. pose proof (sorted_valid_first _ S) as E. set (q := qsort l) in *.
    exists (filter ok q). assert (Ok : forall x, In x (filter ok q) -> ok x = true) by (intros x Hx; now apply filter_In in Hx as [_ Hx]).
    split; [|split; [split|exact Ok]].
    - unfold strip_back. rewrite E at 1. rewrite rev_app_distr, strip_end_app.
      + rewrite <- (rev_involutive (filter ok q)) at 2. f_equal.
        destruct (rev (filter ok q)) as [|x r] eqn:Er; auto. cbn [strip_end]. rewrite Heq, Ok; auto.
        rewrite in_rev, Er. now left.
      + intros x Hx. rewrite <- in_rev in Hx. apply filter_In in Hx as [_ Hx]. now destruct (ok x).
    - clear - P. induction P; simpl; auto.
      + destruct (ok x); auto.
      + destruct (ok y), (ok x); auto. constructor.
      + etransitivity; eauto.
    - clear - S. induction S as [|x s S IH F]; simpl; [constructor|]. destruct (ok x) eqn:E; auto. constructor; auto.
      rewrite Forall_forall in *. intros y Hy. apply filter_In in Hy as [Hy _]. specialize (F y Hy). unfold compare_lt in F.
      now apply orb_false_iff in F as [F _].
  Qed.

  Lemma median_ok split mid l : (length l <= len)%nat -> (forall a b, In a l -> In b l -> ok a = true -> ok b = true -> split a b = Some (mid a b)) ->
    exists r, median_of uinv conv qsort eq split l = Some r /\ median_spec uinv conv lt ok mid l r.
  Proof.
    intros Hlen Hsp. destruct (strip_sorted l Hlen) as (s & Es & (P & S) & Ok). unfold median_of. rewrite Es. unfold median_spec.
    pose proof (Permutation_length P) as L. set (v := filter ok l) in *.
    destruct (Nat.eqb_spec (length s) 0) as [Hz|Hz].
    - exists uinv. split; auto. destruct v; auto. simpl in L. lia.
    - assert (Hne : v <> []) by (intros ->; simpl in L; lia).
      assert (D : (length s / 2 < length s)%nat) by (apply Nat.div_lt; lia).
      destruct (Nat.odd (length s)) eqn:Eo.
      + destruct (nth_error s (length s / 2)) as [m|] eqn:Em; [|apply nth_error_None in Em; lia].
        exists (conv m). split; auto. destruct v as [|v0 v']; [congruence|]. exists s. split; [split; auto|].
        rewrite L, Eo. eauto.
      + destruct (nth_error s (length s / 2)) as [a|] eqn:Ea; [|apply nth_error_None in Ea; lia].
        destruct (nth_error s (length s / 2 - 1)) as [b|] eqn:Eb; [|apply nth_error_None in Eb; lia].
        assert (Hin : forall x, In x s -> In x l).
        { intros x Hx. apply (Permutation_in _ (Permutation_sym P)) in Hx. now apply filter_In in Hx as [Hx _]. }
        rewrite Hsp by ((apply Hin || apply Ok); eapply nth_error_In; eauto). exists (conv (mid a b)). split; auto.
        destruct v as [|v0 v']; [congruence|]. exists s. split; [split; auto|]. rewrite L, Eo. eauto.
  Qed.

  Hypothesis Hlt : order_ok ok lt.
  Hypothesis Heq' : eq_ok ok lt eq.
  Notation oks l := (forall x, In x l -> ok x = true).

  Lemma eq_iff a b : ok a = true -> ok b = true -> eq a b = true <-> lt a b = false /\ lt b a = false.
  Proof. intros Ha Hb. rewrite Heq', andb_true_iff, !negb_true_iff; tauto. Qed.

  Lemma eq_count a b p : ok a = true -> ok b = true -> oks p -> eq a b = true -> countb (eq a) p = countb (eq b) p.
  Proof.
    intros Ha Hb Hp E. induction p as [|x p IH]; auto. simpl. rewrite IH by (intros; apply Hp; now right).
    assert (Hx : ok x = true) by (apply Hp; now left).
    assert (X : eq a x = eq b x); [|now rewrite X].
    apply eq_iff in E as [E1 E2]; auto. destruct Hlt as (_ & _ & N).
    apply eq_true_iff_eq. rewrite !eq_iff by auto. split; intros [A B]; split.
    - apply (N b a x); auto.
    - apply (N x a b); auto.
    - apply (N a b x); auto.
    - apply (N x b a); auto.
  Qed.

  Lemma mode_loop_ok l : forall p cur best cc bc, oks (p ++ l) -> StronglySorted (fun a b => lt b a = false) (p ++ l) ->
    In cur p -> (forall y, In y p -> lt cur y = false) -> In best p ->
    cc = Z.of_nat (countb (eq cur) p) -> bc = Z.of_nat (countb (eq best) p) ->
    (forall y, In y p -> (countb (eq y) p <= countb (eq best) p)%nat /\ (countb (eq y) p = countb (eq best) p -> lt y best = false)) ->
    let m := mode_loop eq l cur best cc bc in
    In m (p ++ l) /\ forall y, In y (p ++ l) -> (countb (eq y) (p ++ l) <= countb (eq m) (p ++ l))%nat /\
      (countb (eq y) (p ++ l) = countb (eq m) (p ++ l) -> lt y m = false).
  Proof.
    induction l as [|x l IH]; intros p cur best cc bc Ho S Hc Hmax Hb Ecc Ebc Hbest; cbn [mode_loop].
    - rewrite app_nil_r. auto.
    - assert (Ho' : oks ((p ++ [x]) ++ l)) by (now rewrite <- app_assoc).
      assert (S' : StronglySorted (fun a b => lt b a = false) ((p ++ [x]) ++ l)) by (now rewrite <- app_assoc).
      replace (p ++ x :: l) with ((p ++ [x]) ++ l) by (now rewrite <- app_assoc).
      assert (Op : oks p) by (intros; apply Ho; apply in_or_app; auto).
      assert (Ox : ok x = true) by (apply Ho; apply in_or_app; right; now left).
      assert (Hx : forall y, In y p -> lt x y = false).
      { intros y Hy. apply (sorted_app_inv lt ok) in S as (_ & _ & H). apply H; auto. now left. }
      assert (Cx : forall y, countb (eq y) (p ++ [x]) = (countb (eq y) p + if eq y x then 1 else 0)%nat).
      { intros y. rewrite countb_app. simpl. destruct (eq y x); lia. }
      assert (Exx : eq x x = true) by (now rewrite Heq).
      assert (Sym : forall a b, ok a = true -> ok b = true -> eq a b = eq b a).
      { intros a b Ha Hb'. rewrite !Heq' by auto. apply andb_comm. }
      assert (Posn : forall y, In y p -> (0 < countb (eq y) p)%nat).
      { intros y Hy. destruct (countb (eq y) p) eqn:E0; [|lia]. rewrite countb_zero in E0. destruct (In_nth_error p y Hy) as [k Hk].
        specialize (E0 _ _ Hk). rewrite Heq, Op in E0 by auto. discriminate. }
      (* the class of x before *)
      assert (Tr : forall a b c, ok a = true -> ok b = true -> ok c = true -> eq a b = true -> eq b c = true -> eq a c = true).
      { intros a b c Ha Hb' Hc' E1 E2. apply eq_iff in E1 as [A1 A2]; auto. apply eq_iff in E2 as [B1 B2]; auto.
        destruct Hlt as (_ & _ & N). apply eq_iff; auto. split; [apply (N a b c)|apply (N c b a)]; auto. }
      assert (Hnew : exists cur' cc', (if eq x cur then (cur, cc + 1) else (x, 1)) = (cur', cc') /\ In cur' (p ++ [x]) /\ eq cur' x = true /\
                 ok cur' = true /\ cc' = Z.of_nat (countb (eq cur') (p ++ [x]))).
      { destruct (eq x cur) eqn:E.
        - exists cur, (cc + 1). rewrite Cx, (Sym cur x), E by auto. repeat split; auto; [apply in_or_app; auto|lia].
        - exists x, 1. rewrite Cx, Exx. repeat split; auto; [apply in_or_app; right; now left|].
          assert (countb (eq x) p = 0%nat); [|lia]. apply countb_zero. intros k y Hy. apply nth_error_In in Hy.
          destruct (eq x y) eqn:Ey; auto. rewrite <- E. symmetry. apply eq_iff in Ey as [A B]; auto. apply eq_iff; auto.
          split; [now apply Hx|]. destruct Hlt as (_ & _ & N). apply (N cur y x); auto. }
      destruct Hnew as (cur' & cc' & -> & Hc' & Ecx & Oc' & Ecc').
      assert (Hmax' : forall y, In y (p ++ [x]) -> lt cur' y = false).
      { apply eq_iff in Ecx as [A B]; auto. destruct Hlt as (I & _ & N). intros y Hy. apply in_app_or in Hy as [Hy|[<-|[]]]; auto.
        apply (N cur' x y); auto. }
      assert (Cls : forall y, In y p -> eq y x = true -> countb (eq y) (p ++ [x]) = countb (eq cur') (p ++ [x])).
      { intros y Hy E. apply eq_count; auto.
        - intros z Hz. apply in_app_or in Hz as [Hz|[<-|[]]]; auto.
        - apply Tr with x; auto. rewrite Sym; auto. }
      assert (Clsx : countb (eq x) (p ++ [x]) = countb (eq cur') (p ++ [x])).
      { apply eq_count; auto; [intros z Hz; apply in_app_or in Hz as [Hz|[<-|[]]]; auto|rewrite Sym; auto]. }
      destruct (Z.ltb_spec bc cc') as [Hlt'|Hge].
      + apply IH; auto. intros y Hy. destruct (eq y x) eqn:E.
        * assert (Ey : ok y = true) by (apply in_app_or in Hy as [Hy|[<-|[]]]; auto).
          assert (countb (eq y) (p ++ [x]) = countb (eq cur') (p ++ [x])) by (apply in_app_or in Hy as [Hy|[<-|[]]]; auto).
          split; [lia|]. intros _. assert (Q : eq y cur' = true) by (apply Tr with x; auto; rewrite Sym; auto).
          apply eq_iff in Q as [Q _]; auto.
        * apply in_app_or in Hy as [Hy|[<-|[]]]; [|congruence]. rewrite (Cx y), E, Nat.add_0_r.
          destruct (Hbest y Hy) as [Hle _]. split; lia.
      + assert (Nbx : eq best x = false).
        { destruct (eq best x) eqn:E; auto. pose proof (Cls best Hb E) as Q. rewrite (Cx best), E in Q. lia. }
        assert (Cb : countb (eq best) (p ++ [x]) = countb (eq best) p) by (rewrite Cx, Nbx; lia).
        apply IH; auto; [apply in_or_app; auto|now rewrite Cb|]. intros y Hy. rewrite Cb. destruct (eq y x) eqn:E.
        * assert (Oy : ok y = true) by (apply in_app_or in Hy as [Hy|[<-|[]]]; auto).
          assert (Q : countb (eq y) (p ++ [x]) = countb (eq cur') (p ++ [x])) by (apply in_app_or in Hy as [Hy|[<-|[]]]; auto).
          split; [lia|]. intros _. apply eq_iff in E as [A B]; auto. destruct Hlt as (_ & _ & N). apply (N y x best); auto.
        * apply in_app_or in Hy as [Hy|[<-|[]]]; [|congruence]. rewrite (Cx y), E, Nat.add_0_r. now apply Hbest.
  Qed.

  Lemma mode_ok l : (length l <= len)%nat -> exists r, mode_of uinv conv qsort eq l = Some r /\ mode_spec uinv conv lt eq ok l r.
  Proof.
    intros Hlen. destruct (strip_sorted l Hlen) as (s & Es & (P & S) & Ok). unfold mode_of. rewrite Es. unfold mode_spec.
    set (v := filter ok l) in *. destruct s as [|x s].
    - exists uinv. split; auto. destruct v; auto. apply Permutation_length in P. discriminate.
    - eexists. split; [reflexivity|]. destruct v as [|v0 v'] eqn:Ev; [apply Permutation_length in P; discriminate|]. rewrite <- Ev in *.
      pose proof (mode_loop_ok s [x] x x 1 1) as H. cbn [app] in H.
      assert (Exx : eq x x = true) by (rewrite Heq; apply Ok; now left).
      destruct H as [Hi Hm]; auto; try (now left).
      + intros y [<-|[]]. apply Hlt.
      + simpl. now rewrite Exx.
      + simpl. now rewrite Exx.
      + intros y [<-|[]]. split; auto. intros _. apply Hlt.
      + exists (mode_loop eq s x x 1 1). split; auto. split.
        * eapply Permutation_in; [symmetry; exact P|exact Hi].
        * intros y Hy. rewrite (countb_perm (eq y) _ _ P), (countb_perm (eq (mode_loop eq s x x 1 1)) _ _ P). apply Hm.
          eapply Permutation_in; [exact P|exact Hy].
  Qed.
End Medians.

Section Quant.
  Context {T U : Type} (lt : T -> T -> bool) (ok : T -> bool) (uinv : U) (conv : T -> U) (nthel : list T -> nat -> list T).
  Hypothesis Hlt : order_ok ok lt.
  Hypothesis Hnth : nth_elements lt ok nthel.

  Lemma quantile_ok split mid nanq down up l :
    (forall a b, In a l -> In b l -> ok a = true -> ok b = true -> split a b = Some (mid a b)) ->
    (forall n, (0 < n <= length l)%nat -> 0 <= down n <= up n /\ up n < Z.of_nat n) ->
    exists r, quantile_of uinv conv ok lt nthel split nanq down up l = Some r /\ quantile_spec uinv conv lt ok mid nanq down up l r.
  Proof.
    intros Hsp Hi. unfold quantile_of, quantile_spec. destruct (negb nanq && negb (forallb ok l)); [eauto|].
    assert (Ov : forall x, In x (filter ok l) -> ok x = true) by (intros x Hx; now apply filter_In in Hx as [_ Hx]).
    set (v := filter ok l) in *. destruct (Nat.eqb_spec (length v) 0) as [Hz|Hz].
    - exists uinv. split; auto. destruct v; auto. discriminate.
    - destruct v as [|v0 v'] eqn:Ev; [simpl in Hz; lia|]. rewrite <- Ev in *. assert (Lv : (length v <= length l)%nat) by (unfold v; clear; induction l as [|a l IH]; simpl; auto; destruct (ok a); simpl; lia).
      destruct (Hi (length v) ltac:(lia)) as [H1 H2].
      destruct (Z.eqb_spec (up (length v)) (down (length v))) as [E|E].
      + destruct (nthel_stat lt ok Hlt nthel Hnth v (Z.to_nat (up (length v))) ltac:(lia) Ov) as (_ & m & Em & s & Hs & Hm).
        rewrite zrd_some by lia. rewrite Em. exists (conv m). split; auto. exists s. split; auto. eauto.
      + destruct (nthel_two lt ok Hlt nthel Hnth v (Z.to_nat (up (length v))) ltac:(lia) Ov) as (m & b & bs & Em & Eb & s & Hs & Hm & Hp).
        rewrite zrd_some by lia. rewrite Em, Eb.
        assert (Os : forall x, In x s -> ok x = true) by (intros x Hx; apply Ov; eapply Permutation_in; [symmetry; apply Hs|exact Hx]).
        assert (Hin : forall x, In x s -> In x l).
        { intros x Hx. apply (Permutation_in _ (Permutation_sym (proj1 Hs))) in Hx. now apply filter_In in Hx as [Hx _]. }
        rewrite Hsp by ((apply Hin || apply Os); eapply nth_error_In; eauto). eexists. split; [reflexivity|]. exists s. split; auto. eauto.
  Qed.

  (** strip_nans *)
  Lemma swap_perm (x : list T) i j a b : (i < j)%nat -> nth_error x i = Some a -> nth_error x j = Some b ->
    forall x1 x2, zwr x (Z.of_nat j) a = Some x1 -> zwr x1 (Z.of_nat i) b = Some x2 ->
    Permutation x x2 /\ (forall k, k <> i -> k <> j -> nth_error x2 k = nth_error x k) /\ nth_error x2 i = Some b /\ nth_error x2 j = Some a /\ length x2 = length x.
  Proof.
    clear. intros Hij Ea Eb x1 x2 E1 E2.
    pose proof (nth_error_Some_lt _ _ _ Eb) as Lj.
    rewrite zwr_some in E1 by lia. injection E1 as <-. rewrite zwr_some in E2 by (rewrite length_upd; lia). injection E2 as <-.
    rewrite !Nat2Z.id.
    assert (N2 : forall k, nth_error (upd (upd x j a) i b) k = if Nat.eqb k i then Some b else if Nat.eqb k j then Some a else nth_error x k).
    { intros k. rewrite !nth_error_upd, length_upd, (Nat.eqb_sym i k), (Nat.eqb_sym j k). destruct (Nat.eqb_spec k i); [subst|].
      - destruct (Nat.ltb_spec i (length x)); simpl; auto; lia.
      - destruct (Nat.eqb_spec k j); subst; simpl; auto. destruct (Nat.ltb_spec j (length x)); simpl; auto; lia. }
    split; [|repeat split].
    - destruct (nth_error_split x i Ea) as (l1 & l2 & -> & <-). rewrite nth_error_app2 in Eb by lia.
      destruct (j - length l1)%nat as [|j'] eqn:Ej; [lia|]. simpl in Eb.
      destruct (nth_error_split l2 j' Eb) as (l3 & l4 & -> & L3).
      assert (Q : upd (upd (l1 ++ a :: l3 ++ b :: l4) j a) (length l1) b = l1 ++ b :: l3 ++ a :: l4).
      { apply list_ext. intros k. rewrite N2. clear N2. destruct (Nat.eqb_spec k (length l1)).
        - subst. rewrite nth_error_app2, Nat.sub_diag by lia. reflexivity.
        - destruct (Nat.ltb_spec k (length l1)).
          + rewrite !nth_error_app1 by lia. destruct (Nat.eqb_spec k j); auto. lia.
          + rewrite !(nth_error_app2 l1) by lia. destruct (k - length l1)%nat as [|k'] eqn:Ek; [lia|]. simpl.
            destruct (Nat.eqb_spec k j).
            * subst. replace k' with (length l3) by lia. rewrite nth_error_app2, Nat.sub_diag by lia. reflexivity.
            * destruct (Nat.ltb_spec k' (length l3)); [now rewrite !nth_error_app1 by lia|].
              rewrite !(nth_error_app2 l3) by lia. destruct (k' - length l3)%nat eqn:E3; [lia|reflexivity]. }
      rewrite Q. apply Permutation_app_head. 
      transitivity (a :: b :: l3 ++ l4); [constructor; symmetry; apply Permutation_middle|].
      rewrite perm_swap. constructor. apply Permutation_middle.
    - intros k H1 H2. rewrite N2. destruct (Nat.eqb_spec k i), (Nat.eqb_spec k j); congruence.
    - rewrite N2, Nat.eqb_refl. reflexivity.
    - rewrite N2, Nat.eqb_refl. destruct (Nat.eqb_spec j i); [lia|reflexivity].
    - now rewrite !length_upd.
  Qed.

  Lemma strip_nans_ok fuel : forall x i j, 0 <= i <= j -> j <= Z.of_nat (length x) -> (Z.to_nat (j - i) <= fuel)%nat ->
    (forall k a, (k < Z.to_nat i)%nat -> nth_error x k = Some a -> ok a = true) ->
    (forall k a, (Z.to_nat j <= k)%nat -> nth_error x k = Some a -> ok a = false) ->
    exists x' n, strip_nans ok fuel x i j = Some (x', n) /\ Permutation x x' /\ 0 <= n <= Z.of_nat (length x') /\
      (forall k a, (k < Z.to_nat n)%nat -> nth_error x' k = Some a -> ok a = true) /\
      (forall k a, (Z.to_nat n <= k)%nat -> nth_error x' k = Some a -> ok a = false).
  Proof.
    clear Hlt Hnth. induction fuel as [|fuel IH]; intros x i j Hij Hj Hf Hl Hr.
    - replace j with i in * by lia. cbn [strip_nans]. rewrite Z.ltb_irrefl. exists x, i. repeat split; auto; lia.
    - cbn [strip_nans]. destruct (Z.ltb_spec i j) as [Hlt|Hge].
      2:{ replace j with i in * by lia. exists x, i. repeat split; auto; lia. }
      rewrite zrd_some by lia. destruct (nth_error x (Z.to_nat i)) as [xi|] eqn:Ei; [|apply nth_error_None in Ei; lia].
      destruct (ok xi) eqn:Ek.
      + apply IH; auto; try lia. intros k a Hk Ha. destruct (Nat.eq_dec k (Z.to_nat i)) as [->|]; [congruence|]. apply (Hl k); auto. lia.
      + rewrite zrd_some by lia. destruct (nth_error x (Z.to_nat (j - 1))) as [xj|] eqn:Ej; [|apply nth_error_None in Ej; lia].
        destruct (ok xj) eqn:Ekj.
        * assert (i <> j - 1) by (intros ->; congruence).
          destruct (zwr x (j - 1) xi) as [x1|] eqn:E1; [|rewrite zwr_some in E1 by lia; discriminate].
          assert (L1 : length x1 = length x) by (rewrite zwr_some in E1 by lia; injection E1 as <-; apply length_upd).
          destruct (zwr x1 i xj) as [x2|] eqn:E2; [|rewrite zwr_some in E2 by lia; discriminate].
          destruct (swap_perm x (Z.to_nat i) (Z.to_nat (j - 1)) xi xj ltac:(lia) Ei Ej x1 x2) as (P & Ho & Hi' & Hj' & L);
            [now rewrite Z2Nat.id by lia|now rewrite Z2Nat.id by lia|].
          destruct (IH x2 (i + 1) (j - 1)) as (x' & n & E & P' & Hn & A & B); try lia.
          -- intros k a Hk Ha. destruct (Nat.eq_dec k (Z.to_nat i)) as [->|]; [congruence|]. rewrite Ho in Ha by lia. apply (Hl k); auto. lia.
          -- intros k a Hk Ha. destruct (Nat.eq_dec k (Z.to_nat (j - 1))) as [->|]; [congruence|]. rewrite Ho in Ha by lia. apply (Hr k); auto. lia.
          -- exists x', n. repeat split; auto; try lia. now rewrite P.
        * apply IH; auto; try lia. intros k a Hk Ha. destruct (Nat.eq_dec k (Z.to_nat (j - 1))) as [->|]; [congruence|]. apply (Hr k); auto. lia.
  Qed.

  Lemma strip_nans_split l : exists x n, strip_nans ok (S (length l)) l 0 (Z.of_nat (length l)) = Some (x, n) /\
    Permutation (filter ok l) (firstn (Z.to_nat n) x) /\ Z.to_nat n = length (filter ok l).
  Proof.
    clear Hlt Hnth. destruct (strip_nans_ok (S (length l)) l 0 (Z.of_nat (length l))) as (x & n & E & P & Hn & A & B); try lia.
    { intros k a Hk Ha. apply nth_error_Some_lt in Ha. lia. }
    exists x, n. split; auto.
    assert (F : filter ok x = firstn (Z.to_nat n) x).
    { rewrite <- (firstn_skipn (Z.to_nat n) x) at 1. rewrite filter_app.
      assert (F1 : forall l, (forall a, In a l -> ok a = true) -> filter ok l = l).
      { clear. induction l as [|a l IH]; simpl; intros H; auto. rewrite H by auto. f_equal. auto. }
      assert (F2 : forall l, (forall a, In a l -> ok a = false) -> filter ok l = []).
      { clear. induction l as [|a l IH]; simpl; intros H; auto. rewrite H by auto. auto. }
      rewrite F1, F2, app_nil_r; auto.
      - intros a Ha. apply In_nth_error in Ha as [k Hk]. rewrite nth_error_skipn in Hk. eapply (B _ a); [|exact Hk]. lia.
      - intros a Ha. apply In_nth_error in Ha as [k Hk]. pose proof (nth_error_Some_lt _ _ _ Hk) as L. rewrite firstn_length in L.
        rewrite nth_error_firstn in Hk. destruct (Nat.ltb_spec k (Z.to_nat n)); [|lia]. eapply (A k a); [lia|exact Hk]. }
    assert (P' : Permutation (filter ok l) (firstn (Z.to_nat n) x)).
    { rewrite <- F. clear - P. induction P; simpl; auto.
      - destruct (ok x); auto.
      - destruct (ok y), (ok x); auto. constructor.
      - etransitivity; eauto. }
    split; auto. apply Permutation_length in P'. rewrite firstn_length in P'. lia.
  Qed.

  Lemma fold_left_perm {D} (add : D -> T -> D) : (forall d x y, add (add d x) y = add (add d y) x) ->
    forall l l', Permutation l l' -> forall d, fold_left add l d = fold_left add l' d.
  Proof.
    intros Hc l l' P. induction P; intros d; simpl; auto; [now rewrite Hc|now rewrite IHP1].
  Qed.

  Lemma filter_perm (f : T -> bool) l l' : Permutation l l' -> Permutation (filter f l) (filter f l').
  Proof.
    clear. induction 1; simpl; auto.
    - destruct (f x); auto.
    - destruct (f y), (f x); auto. constructor.
    - etransitivity; eauto.
  Qed.

  Lemma sorted_of_perm (l l' s : list T) : Permutation l l' -> sorted_of lt l' s -> sorted_of lt l s.
  Proof. clear. intros P [P' S]. split; auto. etransitivity; eauto. Qed.

  Lemma trimmean_ok {D} (le : T -> T -> bool) ntrim (zero : D) add cast l :
    le_ok ok lt le -> (forall d x y, add (add d x) y = add (add d y) x) -> (forall n, (0 < n)%nat -> (0 < ntrim n)%nat) ->
    exists r, trimmean_of uinv ok le nthel ntrim zero add cast l = Some r /\ trimmean_spec uinv lt le ok ntrim zero add cast l r.
  Proof.
    intros Hle Hadd Ht. destruct (strip_nans_split l) as (x & n & E & P & En). unfold trimmean_of, trimmean_spec. rewrite E, En.
    assert (Ov : forall x, In x (filter ok l) -> ok x = true) by (intros y Hy; now apply filter_In in Hy as [_ Hy]).
    rewrite En in P. set (v := filter ok l) in *.
    destruct (Nat.eqb_spec (length v) 0) as [Hz|Hz]; [rewrite Hz in *; simpl; eauto|].
    destruct (Nat.leb_spec (length v) (2 * ntrim (length v))) as [Hn|Hn]; [eauto|].
    specialize (Ht (length v) ltac:(lia)). set (t := ntrim (length v)) in *. set (y := firstn (length v) x) in *.
    pose proof (Permutation_length P) as Ly.
    assert (Oy : forall z, In z y -> ok z = true) by (intros z Hz'; apply Ov; eapply Permutation_in; [symmetry; exact P|exact Hz']).
    destruct (nthel_stat lt ok Hlt nthel Hnth y (t - 1) ltac:(lia) Oy) as (P1 & lb & El & Sl).
    set (p1 := nthel y (t - 1)) in *. pose proof (Permutation_length P1) as L1.
    assert (O1 : forall z, In z p1 -> ok z = true) by (intros z Hz'; apply Oy; eapply Permutation_in; [symmetry; exact P1|exact Hz']).
    destruct (nthel_stat lt ok Hlt nthel Hnth p1 (length v - t) ltac:(lia) O1) as (P2 & ub & Eu & Su).
    set (p2 := nthel p1 (length v - t)) in *. rewrite El, Eu.
    assert (Pv2 : Permutation v p2) by (now rewrite P, P1).
    assert (Sl' : order_stat lt v (t - 1) lb) by (destruct Sl as (s & Hs & H); exists s; split; auto; apply (sorted_of_perm _ _ _ P Hs)).
    assert (Su' : order_stat lt v (length v - t) ub).
    { destruct Su as (s & Hs & H). exists s. split; auto. apply (sorted_of_perm _ p1 s); [now rewrite P|exact Hs]. }
    assert (Hlu : lt ub lb = false) by (eapply (stat_le lt ok Hlt) with (l := v) (i := (t - 1)%nat) (j := (length v - t)%nat); eauto; lia).
    assert (Olb : ok lb = true) by (apply O1; eapply nth_error_In; eauto).
    assert (Oub : ok ub = true) by (apply O1; eapply Permutation_in; [symmetry; exact P2|eapply nth_error_In; eauto]).
    rewrite (Hle lb ub), Hlu by auto. cbn [negb]. eexists. split; [reflexivity|].
    exists lb, ub. split; auto. split; auto.
    set (f := fun y => le lb y && le y ub).
    assert (Pk : Permutation (filter f p2) (filter f v)) by (apply filter_perm; now symmetry).
    assert (Hne : filter f p2 <> []).
    { assert (Hin : In lb (filter f p2)); [|intros Hn'; rewrite Hn' in Hin; destruct Hin].
      apply filter_In. split; [eapply Permutation_in; [exact P2|eapply nth_error_In; eauto]|].
      unfold f. rewrite !Hle, Hlu by auto. destruct Hlt as (I & _ & _). now rewrite I. }
    destruct (filter f p2) as [|k0 ks] eqn:Ek; [congruence|]. rewrite <- Ek in *.
    rewrite (fold_left_perm add Hadd _ _ Pk), (Permutation_length Pk). reflexivity.
  Qed.
End Quant.
