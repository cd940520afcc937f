(** Orders, stable sorting and the array-level merge sort. *)
From Coq Require Import Sorting.Sorted.
From Verif Require Import Base Mem MemLemmas Num SortModel SortSpec.
Local Open Scope Z_scope.

Section O.
  Context {E : Type} (lt : E -> E -> bool) (sw : strict_weak lt).

  Lemma lt_asym x y : lt x y = true -> lt y x = false.
  Proof. apply sw. Qed.
  Lemma lt_irr x : lt x x = false.
  Proof. destruct (lt x x) eqn:H; auto. now rewrite (lt_asym _ _ H) in H. Qed.
  Lemma lt_neg x y z : lt x z = true -> lt x y = true \/ lt y z = true.
  Proof. apply sw. Qed.
  Lemma lt_tr x y z : lt x y = true -> lt y z = true -> lt x z = true.
  Proof.
    intros H1 H2. destruct (lt_neg _ z _ H1) as [|H]; auto. now rewrite (lt_asym _ _ H2) in H.
  Qed.
  (* <= is transitive *)
  Lemma nlt_tr x y z : lt y x = false -> lt z y = false -> lt z x = false.
  Proof. intros H1 H2. destruct (lt z x) eqn:H; auto. destruct (lt_neg _ y _ H); congruence. Qed.
  Lemma nlt_lt x y z : lt y x = false -> lt y z = true -> lt x z = true.
  Proof. intros H1 H2. destruct (lt_neg _ x _ H2); congruence. Qed.
  Lemma lt_nlt x y z : lt x y = true -> lt z y = false -> lt x z = true.
  Proof. intros H1 H2. destruct (lt_neg _ z _ H1); congruence. Qed.

  Lemma eqv_refl x : eqv lt x x = true.
  Proof. unfold eqv. now rewrite lt_irr. Qed.
  Lemma eqv_spec x y : eqv lt x y = true <-> lt x y = false /\ lt y x = false.
  Proof. unfold eqv. rewrite andb_true_iff, !negb_true_iff. tauto. Qed.
  (* equivalent to the same element: not less *)
  Lemma eqv_nlt e x y : eqv lt e x = true -> eqv lt e y = true -> lt x y = false.
  Proof. rewrite !eqv_spec. intros [H1 H2] [H3 H4]. eapply nlt_tr; eauto. Qed.
End O.

Section Sorted.
  Context {E : Type} (lt : E -> E -> bool).

  Definition SS := StronglySorted (fun x y => lt y x = false).
  Lemma SS_sorted l : SS l <-> sorted lt l.
  Proof.
    split.
    - induction 1 as [|a l H IH F]; intros i j x y Hij Hi Hj; [now destruct i|].
      rewrite Forall_forall in F. destruct j; [lia|]. destruct i; simpl in *.
      + injection Hi as <-. apply F. eapply nth_error_In; eauto.
      + eapply (IH i j); eauto. lia.
    - induction l as [|a l IH]; intros H; constructor.
      + apply IH. intros i j x y Hij Hi Hj. apply (H (S i) (S j) x y); auto. lia.
      + apply Forall_forall. intros y Hy. apply In_nth_error in Hy. destruct Hy as [j Hj]. apply (H 0%nat (S j) a y); auto. lia.
  Qed.
  Lemma SS_app l r : SS (l ++ r) <-> SS l /\ SS r /\ forall x y, In x l -> In y r -> lt y x = false.
  Proof.
    induction l as [|a l IH]; simpl.
    - split; [intros H; split; [constructor|]; split; auto; intros ? ? []|tauto].
    - split.
      + intros H. inversion H as [|? ? H1 H2]; subst. apply IH in H1. destruct H1 as (A & B & C). rewrite Forall_app in H2.
        destruct H2 as [F1 F2]. rewrite Forall_forall in F2. split; [constructor; auto|]. split; auto.
        intros x y [<-|Hx] Hy; auto.
      + intros (A & B & C). inversion A as [|? ? A1 A2]; subst. constructor.
        * apply IH. split; [auto|]. split; [auto|]. intros; apply C; auto.
        * rewrite Forall_app. split; auto. apply Forall_forall. intros; apply C; auto.
  Qed.
End Sorted.

(** ** Stable sorts *)
Section Stable.
  Context {E : Type} (lt : E -> E -> bool) (sw : strict_weak lt).

  Lemma perm_eqv orig res : Permutation orig res -> forall x, Permutation (filter (eqv lt x) orig) (filter (eqv lt x) res).
  Proof.
    intros P x. induction P; simpl; auto.
    - destruct (eqv lt x x0); auto.
    - destruct (eqv lt x y), (eqv lt x x0); auto. apply perm_swap.
    - eapply perm_trans; eauto.
  Qed.

  Lemma stable_refl l : sorted lt l -> stable_sort lt l l.
  Proof. split; auto. Qed.
  Lemma stable_nil : stable_sort lt [] [].
  Proof. apply stable_refl. intros i j x y _ H. destruct i; discriminate. Qed.

  (** the result of a stable sort is unique *)
  Lemma stable_unique l r1 r2 : stable_sort lt l r1 -> stable_sort lt l r2 -> r1 = r2.
  Proof.
    intros (P1 & S1 & F1) (P2 & S2 & F2). apply SS_sorted in S1, S2.
    assert (F : forall x, filter (eqv lt x) r1 = filter (eqv lt x) r2) by (intros; rewrite F1, F2; auto).
    assert (P : Permutation r1 r2) by (eapply perm_trans; [apply Permutation_sym; eauto|auto]).
    clear F1 F2 P1 P2 l. revert r2 S2 F P. induction S1 as [|a l S1 IH A1]; intros r2 S2 F P.
    - apply Permutation_nil in P. auto.
    - destruct r2 as [|b r]; [symmetry in P; apply Permutation_nil in P; discriminate|].
      inversion S2 as [|? ? S2' A2]; subst. rewrite Forall_forall in A1, A2.
      assert (a = b) as <-.
      { assert (B : lt a b = false).
        { assert (H : In a (b :: r)) by (eapply Permutation_in; [eauto|now left]). destruct H as [<-|H]; [apply lt_irr; auto|]. now apply A2. }
        assert (A : lt b a = false).
        { assert (H : In b (a :: l)) by (eapply Permutation_in; [apply Permutation_sym; eauto|now left]). destruct H as [<-|H]; [apply lt_irr; auto|]. now apply A1. }
        specialize (F a). simpl in F. rewrite (eqv_refl _ sw a) in F. replace (eqv lt a b) with true in F by (symmetry; apply eqv_spec; auto).
        now injection F. }
      f_equal. apply IH; auto.
      + intros x. specialize (F x). simpl in F. destruct (eqv lt x a); [now injection F|auto].
      + eapply Permutation_cons_inv; eauto.
  Qed.

  (** ** Insertion *)
  Fixpoint ins_rev (vp : E) (r : list E) : list E :=
    match r with [] => [vp] | y :: r' => if lt vp y then y :: ins_rev vp r' else vp :: r end.
  Definition insb (vp : E) (s : list E) : list E := rev (ins_rev vp (rev s)).

  Lemma ins_rev_split vp r : SS (fun x y => lt y x) r -> exists r1 r2, r = r1 ++ r2 /\ ins_rev vp r = r1 ++ vp :: r2 /\
    Forall (fun y => lt vp y = true) r1 /\ Forall (fun y => lt vp y = false) r2.
  Proof.
    induction 1 as [|y r S IH A]; simpl.
    - exists [], []. auto.
    - destruct (lt vp y) eqn:H.
      + destruct IH as (r1 & r2 & -> & -> & F1 & F2). exists (y :: r1), r2. auto.
      + exists [], (y :: r). repeat split; auto. constructor; auto. rewrite Forall_forall in *. intros z Hz.
        specialize (A z Hz). eapply nlt_tr; eauto.
  Qed.
  Lemma SS_rev l : SS lt l -> SS (fun x y => lt y x) (rev l).
  Proof.
    induction 1 as [|a l S IH A]; simpl; [constructor|]. rewrite SS_app. split; auto. split.
    - constructor; constructor.
    - intros x y Hx [<-|[]]. rewrite Forall_forall in A. apply A. now apply in_rev.
  Qed.
  Lemma insb_split vp s : sorted lt s -> exists s1 s2, s = s1 ++ s2 /\ insb vp s = s1 ++ vp :: s2 /\
    (forall y, In y s1 -> lt vp y = false) /\ (forall y, In y s2 -> lt vp y = true).
  Proof.
    intros H. apply SS_sorted, SS_rev in H. destruct (ins_rev_split vp _ H) as (r1 & r2 & E0 & E1 & F1 & F2).
    exists (rev r2), (rev r1). unfold insb. rewrite E1, rev_app_distr. simpl. rewrite <- app_assoc. simpl.
    rewrite Forall_forall in F1, F2. repeat split.
    - rewrite <- rev_app_distr, <- E0. now rewrite rev_involutive.
    - intros y Hy. apply F2. now apply in_rev.
    - intros y Hy. apply F1. now apply in_rev.
  Qed.

  Lemma filter_none (f : E -> bool) l : (forall y, In y l -> f y = false) -> filter f l = [].
  Proof. induction l; simpl; auto. intros H. rewrite H by auto. apply IHl. auto. Qed.

  Lemma insb_stable p s vp : stable_sort lt p s -> stable_sort lt (p ++ [vp]) (insb vp s).
  Proof.
    intros (P & S & F). destruct (insb_split vp s S) as (s1 & s2 & -> & -> & L & R).
    apply SS_sorted in S. apply SS_app in S. destruct S as (S1 & S2 & S12). split; [|split].
    - transitivity (vp :: p); [symmetry; apply Permutation_cons_append|]. transitivity (vp :: s1 ++ s2); auto. apply Permutation_middle.
    - apply SS_sorted. apply SS_app. split; auto. split.
      + constructor; auto. apply Forall_forall. intros y Hy. apply lt_asym; auto.
      + intros x y Hx [<-|Hy]; auto.
    - intros x. rewrite !filter_app in *. simpl. rewrite <- (F x). rewrite filter_app. destruct (eqv lt x vp) eqn:H; [|now rewrite app_nil_r].
      assert (N : filter (eqv lt x) s2 = []).
      { apply filter_none. intros y Hy. destruct (eqv lt x y) eqn:H2; auto. specialize (R y Hy).
        now rewrite (eqv_nlt _ sw x vp y) in R. }
      now rewrite N, app_nil_r.
  Qed.

  (** ** Merging *)
  Fixpoint mrg (l : list E) : list E -> list E :=
    match l with
    | [] => fun r => r
    | y :: l' => fix go r := match r with
                             | [] => l
                             | x :: r' => if lt x y then x :: go r' else y :: mrg l' r
                             end
    end.
  Lemma mrg_nil_r l : mrg l [] = l.
  Proof. destruct l; auto. Qed.
  Lemma mrg_cons y l x r : mrg (y :: l) (x :: r) = if lt x y then x :: mrg (y :: l) r else y :: mrg l (x :: r).
  Proof. reflexivity. Qed.
  Lemma mrg_perm l : forall r, Permutation (l ++ r) (mrg l r).
  Proof.
    induction l as [|y l IH]; intros r; [auto|]. induction r as [|x r IHr].
    - rewrite app_nil_r, mrg_nil_r. auto.
    - rewrite mrg_cons. destruct (lt x y).
      + etransitivity; [symmetry; apply Permutation_middle|]. constructor. auto.
      + simpl. constructor. auto.
  Qed.
  Lemma mrg_in l r z : In z (mrg l r) <-> In z l \/ In z r.
  Proof.
    rewrite <- in_app_iff. split; apply Permutation_in; [apply Permutation_sym|]; apply mrg_perm.
  Qed.
  Lemma mrg_length l r : length (mrg l r) = (length l + length r)%nat.
  Proof. rewrite <- (Permutation_length (mrg_perm l r)). apply app_length. Qed.

  Lemma mrg_ok l : forall r, SS lt l -> SS lt r -> SS lt (mrg l r) /\ forall e, filter (eqv lt e) (mrg l r) = filter (eqv lt e) l ++ filter (eqv lt e) r.
  Proof.
    induction l as [|y l IH]; intros r Hl Hr; [simpl; auto|]. induction r as [|x r IHr].
    - rewrite mrg_nil_r. split; auto. intros. now rewrite app_nil_r.
    - rewrite mrg_cons. inversion Hl as [|? ? Hl' Al]; subst. inversion Hr as [|? ? Hr' Ar]; subst. rewrite Forall_forall in Al, Ar.
      destruct (lt x y) eqn:H.
      + destruct (IHr Hr') as [I1 I2]. split.
        * constructor; auto. apply Forall_forall. intros z Hz. apply mrg_in in Hz. destruct Hz as [[<-|Hz]|Hz]; auto.
          -- apply lt_asym; auto.
          -- apply (nlt_tr _ sw x y z); auto. apply lt_asym; auto.
        * intros e. simpl filter at 1. rewrite I2. simpl (filter _ (x :: r)). destruct (eqv lt e x) eqn:Ex; auto.
          replace (filter (eqv lt e) (y :: l)) with (@nil E); auto. symmetry. apply filter_none. intros z Hz.
          destruct (eqv lt e z) eqn:Ez; auto. assert (Hxz : lt x z = true).
          { destruct Hz as [<-|Hz]; auto. apply (lt_nlt _ sw x y z); auto. }
          now rewrite (eqv_nlt _ sw e x z) in Hxz.
      + destruct (IH (x :: r) Hl' Hr) as [I1 I2]. split.
        * constructor; auto. apply Forall_forall. intros z Hz. apply mrg_in in Hz. destruct Hz as [Hz|[<-|Hz]]; auto.
          apply (nlt_tr _ sw y x z); auto.
        * intros e. simpl filter at 1. rewrite I2. simpl (filter _ (y :: l)). destruct (eqv lt e y); auto.
  Qed.
  Lemma mrg_stable l1 l2 r1 r2 : stable_sort lt l1 r1 -> stable_sort lt l2 r2 -> stable_sort lt (l1 ++ l2) (mrg r1 r2).
  Proof.
    intros (P1 & S1 & F1) (P2 & S2 & F2). apply SS_sorted in S1, S2. destruct (mrg_ok r1 r2 S1 S2) as [A B]. split; [|split].
    - etransitivity; [|apply mrg_perm]. now apply Permutation_app.
    - now apply SS_sorted.
    - intros x. rewrite B, filter_app. now rewrite F1, F2.
  Qed.
  (* the check of amergesort0_: nothing to merge *)
  Lemma app_stable l1 l2 r1 r2 : stable_sort lt l1 r1 -> stable_sort lt l2 r2 ->
    (forall x y, In x r1 -> In y r2 -> lt y x = false) -> stable_sort lt (l1 ++ l2) (r1 ++ r2).
  Proof.
    intros (P1 & S1 & F1) (P2 & S2 & F2) H. apply SS_sorted in S1, S2. split; [|split].
    - now apply Permutation_app.
    - apply SS_sorted, SS_app. auto.
    - intros x. rewrite !filter_app. now rewrite F1, F2.
  Qed.
End Stable.

(** ** Array accesses *)
Lemma zrd_mid {A} (l : list A) x r k : k = Z.of_nat (length l) -> zrd (l ++ x :: r) k = Some x.
Proof. intros ->. rewrite zrd_some by lia. rewrite Nat2Z.id, nth_error_app2 by lia. now rewrite Nat.sub_diag. Qed.
Lemma zwr_mid {A} (l : list A) x y r k : k = Z.of_nat (length l) -> zwr (l ++ x :: r) k y = Some (l ++ y :: r).
Proof.
  intros ->. rewrite zwr_some by (rewrite app_length; simpl; lia). rewrite Nat2Z.id, upd_app_r by lia. now rewrite Nat.sub_diag.
Qed.

Section Merge.
  Context {E : Type} (cmp : E -> E -> option bool) (lt : E -> E -> bool) (sw : strict_weak lt).

  Lemma ins_array r : forall pre h t vp k, k = Z.of_nat (length pre + length r) -> (forall y, In y r -> cmp vp y = Some (lt vp y)) ->
    ins cmp (length r) (pre ++ rev r ++ h :: t) k vp = Some (pre ++ rev (ins_rev lt vp r) ++ t).
  Proof.
    clear sw. induction r as [|y r IH]; intros pre h t vp k Hk Hc; simpl.
    - apply zwr_mid. rewrite Hk. simpl. lia.
    - rewrite <- !app_assoc. simpl. rewrite app_assoc. rewrite zrd_mid by (rewrite app_length, rev_length; simpl in *; lia).
      rewrite Hc by now left. destruct (lt vp y) eqn:H.
      + change (y :: h :: t) with ([y] ++ h :: t). rewrite app_assoc. rewrite zwr_mid by (rewrite !app_length, rev_length; simpl in *; lia).
        rewrite <- !app_assoc. simpl. rewrite IH by (auto; simpl in *; lia || (intros; apply Hc; now right)). now rewrite <- !app_assoc.
      + change (y :: h :: t) with ([y] ++ h :: t). rewrite app_assoc. rewrite zwr_mid by (rewrite !app_length, rev_length; simpl in *; lia).
        simpl. now rewrite <- !app_assoc.
  Qed.
  Lemma insb_array s : forall pre h t vp k n, k = Z.of_nat (length pre + length s) -> n = length s -> (forall y, In y s -> cmp vp y = Some (lt vp y)) ->
    ins cmp n (pre ++ s ++ h :: t) k vp = Some (pre ++ insb lt vp s ++ t).
  Proof.
    clear sw. intros pre h t vp k n Hk -> Hc. unfold insb. pose proof (ins_array (rev s) pre h t vp k) as H.
    rewrite rev_involutive, rev_length in H. apply H; auto. intros y Hy. apply Hc. now apply in_rev.
  Qed.

  Lemma ins_loop_ok todo : forall pre done s post, stable_sort lt done s -> compares lt cmp (done ++ todo) ->
    exists r, ins_loop cmp (length todo) (pre ++ s ++ todo ++ post) (Z.of_nat (length pre)) (Z.of_nat (length pre + length s)) = Some (pre ++ r ++ post) /\
      stable_sort lt (done ++ todo) r.
  Proof.
    induction todo as [|x todo IH]; intros pre done s post St Hc; simpl.
    - exists s. rewrite app_nil_r. auto.
    - rewrite app_assoc. rewrite zrd_mid by (rewrite app_length; lia). rewrite <- app_assoc.
      assert (Ps : forall y, In y s -> In y done) by (intros y; apply Permutation_in, Permutation_sym; apply St).
      rewrite (insb_array s pre x (todo ++ post) x) by (try lia; intros y Hy; apply Hc; rewrite in_app_iff; simpl; auto).
      destruct (IH pre (done ++ [x]) (insb lt x s) post) as (r & E1 & E2).
      + now apply insb_stable.
      + now rewrite <- app_assoc.
      + exists r. rewrite <- app_assoc in E2. split; auto. rewrite <- E1. f_equal.
        assert (L : length (insb lt x s) = S (length s)).
        { rewrite <- (Permutation_length (proj1 (insb_stable _ sw _ _ x St))), app_length, (Permutation_length (proj1 St)). simpl. lia. }
        rewrite L. lia.
  Qed.
  Lemma insertion_ok l pre post pl pr : pl = Z.of_nat (length pre) -> pr = pl + Z.of_nat (length l) -> compares lt cmp l ->
    exists r, insertion_sort cmp (pre ++ l ++ post) pl pr = Some (pre ++ r ++ post) /\ stable_sort lt l r.
  Proof.
    intros -> -> Hc. unfold insertion_sort. destruct l as [|x l].
    - exists []. simpl. replace (Z.to_nat _) with 0%nat by lia. split; auto. apply stable_nil.
    - replace (Z.to_nat _) with (length l) by (simpl; lia).
      destruct (ins_loop_ok l pre [x] [x] post) as (r & E1 & E2); auto.
      + apply stable_refl. apply SS_sorted. constructor; constructor.
      + exists r. split; auto. rewrite <- E1. f_equal. simpl. lia.
  Qed.

  (** ** The merge of two halves *)
  Lemma copy_out_ok (l : list E) : forall pre post wpre w wpost pi pj, pi = Z.of_nat (length wpre) -> pj = Z.of_nat (length pre) -> length w = length l ->
    copy_out (length l) (pre ++ l ++ post) (wpre ++ w ++ wpost) pi pj = Some (wpre ++ l ++ wpost).
  Proof.
    clear. induction l as [|x l IH]; intros pre post wpre w wpost pi pj Hi Hj Hl; destruct w as [|y w]; try discriminate; auto.
    cbn [copy_out length]. simpl app. rewrite zrd_mid by auto. rewrite zwr_mid by auto.
    specialize (IH (pre ++ [x]) post (wpre ++ [x]) w wpost (pi + 1) (pj + 1)). rewrite <- !app_assoc in IH. simpl in IH. rewrite IH; auto.
    - rewrite app_length. simpl. lia.
    - rewrite app_length. simpl. lia.
  Qed.
  Lemma copy_back_ok (l : list E) : forall pre gap post wpre wpost pj pk, pj = Z.of_nat (length wpre) -> pk = Z.of_nat (length pre) -> length gap = length l ->
    copy_back (length l) (pre ++ gap ++ post) (wpre ++ l ++ wpost) pj pk = Some (pre ++ l ++ post).
  Proof.
    clear. induction l as [|x l IH]; intros pre gap post wpre wpost pj pk Hj Hk Hl; destruct gap as [|y gap]; try discriminate; auto.
    cbn [copy_back length]. simpl app. rewrite zrd_mid by auto. rewrite zwr_mid by auto.
    specialize (IH (pre ++ [x]) gap post (wpre ++ [x]) wpost (pj + 1) (pk + 1)). rewrite <- !app_assoc in IH. simpl in IH. rewrite IH; auto.
    - rewrite app_length. simpl. lia.
    - rewrite app_length. simpl. lia.
  Qed.
  Lemma merge_loop_ok fuel : forall (left right : list E) pre gap post wpre wpost pj pi pm pr pk,
    length gap = length left -> (length left + length right <= fuel)%nat ->
    pj = Z.of_nat (length wpre) -> pi = pj + Z.of_nat (length left) ->
    pk = Z.of_nat (length pre) -> pm = pk + Z.of_nat (length gap) -> pr = pm + Z.of_nat (length right) ->
    (forall x y, In x right -> In y left -> cmp x y = Some (lt x y)) ->
    merge_loop cmp fuel (pre ++ gap ++ right ++ post) (wpre ++ left ++ wpost) pj pi pm pr pk = Some (pre ++ mrg lt left right ++ post).
  Proof.
    clear sw. induction fuel as [|f IH]; intros left right pre gap post wpre wpost pj pi pm pr pk Hg Hf Hj Hi Hk Hm Hr Hc.
    - destruct left, right; simpl in Hf; try lia. destruct gap; [|discriminate]. simpl.
      replace (pj <? pi) with false by (symmetry; apply Z.ltb_ge; simpl in *; lia). simpl. replace (Z.to_nat (pi - pj)) with 0%nat by (simpl in *; lia). auto.
    - cbn [merge_loop]. destruct left as [|y left].
      + destruct gap; [|discriminate]. replace (pj <? pi) with false by (symmetry; apply Z.ltb_ge; simpl in *; lia). simpl.
        replace (Z.to_nat (pi - pj)) with 0%nat by (simpl in *; lia). auto.
      + destruct right as [|x right].
        * replace (pm <? pr) with false by (symmetry; apply Z.ltb_ge; simpl in *; lia). rewrite andb_false_r.
          replace (Z.to_nat (pi - pj)) with (length (y :: left)) by (simpl in *; lia). rewrite app_nil_l, mrg_nil_r. apply copy_back_ok; auto.
        * replace (pj <? pi) with true by (symmetry; apply Z.ltb_lt; simpl in *; lia).
          replace (pm <? pr) with true by (symmetry; apply Z.ltb_lt; simpl in *; lia). cbn [andb].
          simpl (y :: left) at 1. rewrite (app_assoc pre gap). simpl ((x :: right) ++ post). rewrite zrd_mid by (rewrite app_length; lia).
          simpl ((y :: left) ++ wpost). rewrite zrd_mid by auto. rewrite Hc by (now left). rewrite mrg_cons.
          destruct gap as [|g gap]; [discriminate|]. rewrite <- app_assoc. simpl ((g :: gap) ++ x :: right ++ post).
          destruct (lt x y) eqn:L.
          -- rewrite zwr_mid by auto. specialize (IH (y :: left) right (pre ++ [x]) (gap ++ [x]) post wpre wpost pj pi (pm + 1) pr (pk + 1)).
             rewrite <- !app_assoc in IH. simpl in IH. simpl. rewrite IH; auto; try (rewrite ?app_length; simpl in *; lia).
             intros; apply Hc; simpl in *; auto.
          -- rewrite zwr_mid by auto. specialize (IH left (x :: right) (pre ++ [y]) gap post (wpre ++ [y]) wpost (pj + 1) pi pm pr (pk + 1)).
             rewrite <- !app_assoc in IH. simpl in IH. simpl. rewrite IH; auto; try (rewrite ?app_length; simpl in *; lia).
             intros; apply Hc; simpl in *; auto.
  Qed.

  Lemma half_split {A} (l : list A) m : (m <= length l)%nat -> exists l1 l2, l = l1 ++ l2 /\ length l1 = m.
  Proof. clear. intros H. exists (firstn m l), (skipn m l). rewrite firstn_skipn, firstn_length. split; auto. lia. Qed.

  (* [w]: the part of the workspace that is used *)
  Lemma merge_halves_ok (l1 l2 : list E) pre post wpre w wpost w0 pl pr :
    length l1 = ((length l1 + length l2) / 2)%nat -> (length l1 <= length w)%nat ->
    w0 = Z.of_nat (length wpre) -> pl = Z.of_nat (length pre) -> pr = pl + Z.of_nat (length l1 + length l2) ->
    compares lt cmp (l1 ++ l2) ->
    exists w', merge_halves cmp (pre ++ (l1 ++ l2) ++ post) (wpre ++ w ++ wpost) w0 pl pr = Some (pre ++ mrg lt l1 l2 ++ post, wpre ++ w' ++ wpost) /\
      length w' = length w.
  Proof.
    clear sw. intros H1 Hw -> -> -> Hc. unfold merge_halves.
    replace (Z.shiftr _ 1) with (Z.of_nat (length l1)).
    2:{ rewrite Z.shiftr_div_pow2 by lia. change (2 ^ 1) with 2. rewrite H1. rewrite Nat2Z.inj_div. f_equal. lia. }
    replace (Z.to_nat (Z.of_nat (length pre) + Z.of_nat (length l1) - Z.of_nat (length pre))) with (length l1) by lia.
    destruct (half_split w (length l1) Hw) as (w1 & w2 & -> & L1).
    rewrite <- !app_assoc. rewrite copy_out_ok by auto.
    replace (Z.of_nat (length wpre) + (Z.of_nat (length pre) + Z.of_nat (length l1) - Z.of_nat (length pre))) with (Z.of_nat (length wpre) + Z.of_nat (length l1)) by lia.
    rewrite merge_loop_ok; auto; try lia.
    - exists (l1 ++ w2). rewrite <- !app_assoc. split; auto. rewrite !app_length. lia.
    - intros. apply Hc; rewrite in_app_iff; auto.
  Qed.

  (** ** Merge sort *)
  Lemma compares_sub a b : (forall x, In x b -> In x a) -> compares lt cmp a -> compares lt cmp b.
  Proof. clear. intros H C x y Hx Hy. apply C; auto. Qed.
  Lemma stable_in l r : stable_sort lt l r -> forall x, In x r <-> In x l.
  Proof. clear. intros (P & _) x. split; apply Permutation_in; auto. now apply Permutation_sym. Qed.
  Lemma stable_length l r : stable_sort lt l r -> length r = length l.
  Proof. clear. intros (P & _). symmetry. now apply Permutation_length. Qed.

  Lemma mergesort0_ok check fuel : forall l pre post wpre w wpost w0 pl pr,
    (length l < fuel)%nat -> (length l / 2 <= length w)%nat ->
    w0 = Z.of_nat (length wpre) -> pl = Z.of_nat (length pre) -> pr = pl + Z.of_nat (length l) -> compares lt cmp l ->
    exists r w', mergesort0 cmp check fuel (pre ++ l ++ post) (wpre ++ w ++ wpost) w0 pl pr = Some (pre ++ r ++ post, wpre ++ w' ++ wpost) /\
      stable_sort lt l r /\ length w' = length w.
  Proof.
    induction fuel as [|f IH]; intros l pre post wpre w wpost w0 pl pr Hf Hw H0 Hl Hr Hc; [lia|]. cbn [mergesort0].
    destruct (Z.ltb_spec 16 (pr - pl)) as [Big|Small].
    - destruct (half_split l (length l / 2)) as (l1 & l2 & -> & L1). { apply Nat.div_le_upper_bound; lia. }
      rewrite app_length in *. set (n := (length l1 + length l2)%nat) in *.
      assert (D : (2 * (n / 2) <= n < 2 * (n / 2) + 2)%nat).
      { pose proof (Nat.div_mod n 2 ltac:(lia)). pose proof (Nat.mod_upper_bound n 2 ltac:(lia)). lia. }
      replace (Z.shiftr (pr - pl) 1) with (Z.of_nat (length l1)).
      2:{ rewrite Z.shiftr_div_pow2 by lia. change (2 ^ 1) with 2. rewrite L1, Nat2Z.inj_div. f_equal. lia. }
      destruct (IH l1 pre (l2 ++ post) wpre w wpost w0 pl (pl + Z.of_nat (length l1))) as (r1 & w1 & E1 & S1 & W1); auto; try lia.
      { eapply compares_sub; [|exact Hc]. intros; apply in_app_iff; auto. }
      rewrite <- !app_assoc. rewrite E1.
      destruct (IH l2 (pre ++ r1) post wpre w1 wpost w0 (pl + Z.of_nat (length l1)) pr) as (r2 & w2 & E2 & S2 & W2); auto; try lia.
      { rewrite app_length, (stable_length _ _ S1). lia. }
      { eapply compares_sub; [|exact Hc]. intros; apply in_app_iff; auto. }
      rewrite <- !app_assoc in E2. rewrite E2.
      assert (Hc' : compares lt cmp (r1 ++ r2)).
      { eapply compares_sub; [|exact Hc]. intros x. rewrite !in_app_iff, (stable_in _ _ S1), (stable_in _ _ S2). auto. }
      destruct (merge_halves_ok r1 r2 pre post wpre w2 wpost w0 pl pr) as (w3 & E3 & W3); auto.
      { rewrite (stable_length _ _ S1), (stable_length _ _ S2). auto. }
      { rewrite (stable_length _ _ S1). lia. }
      { rewrite (stable_length _ _ S1), (stable_length _ _ S2). lia. }
      rewrite <- !app_assoc in E3.
      assert (M : exists r w', merge_halves cmp (pre ++ r1 ++ r2 ++ post) (wpre ++ w2 ++ wpost) w0 pl pr = Some (pre ++ r ++ post, wpre ++ w' ++ wpost) /\
                    stable_sort lt (l1 ++ l2) r /\ length w' = length w).
      { exists (mrg lt r1 r2), w3. rewrite E3. split; auto. split; [now apply mrg_stable|lia]. }
      destruct check; auto.
      assert (N1 : (0 < length r1)%nat) by (rewrite (stable_length _ _ S1); lia).
      assert (N2 : (0 < length r2)%nat) by (rewrite (stable_length _ _ S2); lia).
      destruct r2 as [|x r2]; [simpl in N2; lia|]. destruct (exists_last (l := r1)) as (r1' & y & ->). { intros ->. simpl in N1; lia. }
      assert (L1' : length (r1' ++ [y]) = length l1) by apply (stable_length _ _ S1).
      rewrite app_length in L1'. simpl in L1'.
      assert (R1 : zrd (pre ++ (r1' ++ [y]) ++ (x :: r2) ++ post) (pl + Z.of_nat (length l1)) = Some x).
      { rewrite (app_assoc pre (r1' ++ [y])). apply zrd_mid. rewrite !app_length. simpl. lia. }
      assert (R2 : zrd (pre ++ (r1' ++ [y]) ++ (x :: r2) ++ post) (pl + Z.of_nat (length l1) - 1) = Some y).
      { rewrite <- (app_assoc r1' [y]). rewrite (app_assoc pre r1'). apply zrd_mid. rewrite !app_length. simpl. lia. }
      rewrite R1, R2.
      rewrite Hc' by (rewrite !in_app_iff; simpl; auto). destruct (lt x y) eqn:L; auto.
      exists ((r1' ++ [y]) ++ x :: r2), w2. rewrite <- !app_assoc. split; auto. split; [|lia]. rewrite app_assoc. apply app_stable; auto.
      pose proof (proj1 (proj2 S1)) as T1. pose proof (proj1 (proj2 S2)) as T2. apply SS_sorted in T1, T2. apply SS_app in T1.
      destruct T1 as (_ & _ & T1). inversion T2 as [|? ? _ T2']; subst. rewrite Forall_forall in T2'.
      intros u v Hu Hv. assert (A : lt y u = false).
      { apply in_app_iff in Hu. destruct Hu as [Hu|[<-|[]]]; [apply T1; simpl; auto|]. now apply lt_irr. }
      assert (B : lt v x = false). { destruct Hv as [<-|Hv]; [now apply lt_irr|auto]. }
      eapply nlt_tr; [exact sw| |exact B]. eapply nlt_tr; eauto.
    - destruct (insertion_ok l pre post pl pr) as (r & E1 & S1); auto. rewrite E1. eauto.
  Qed.

  Lemma mergesort_ok check junk l pre post pl num :
    pl = Z.of_nat (length pre) -> num = Z.of_nat (length l) -> (length l <= length junk)%nat -> compares lt cmp l ->
    exists r, mergesort cmp check junk (pre ++ l ++ post) pl num = Some (pre ++ r ++ post) /\ stable_sort lt l r.
  Proof.
    intros Hpl Hn Hj Hc. unfold mergesort. set (w := firstn (Z.to_nat (num / 2)) junk).
    destruct (mergesort0_ok check (S (Z.to_nat num)) l pre post [] w [] 0 pl (pl + num)) as (r & w' & E1 & S1 & _); auto; try lia.
    - subst w. rewrite firstn_length. rewrite Hn. change 2 with (Z.of_nat 2) at 1. rewrite <- Nat2Z.inj_div, Nat2Z.id.
      assert (length l / 2 <= length l)%nat by (apply Nat.div_le_upper_bound; lia). lia.
    - rewrite !app_nil_l, !app_nil_r in E1. rewrite E1. eauto.
  Qed.
End Merge.
