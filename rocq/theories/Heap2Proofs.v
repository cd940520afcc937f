(** Heaps of elements: the operations. *)
From Verif Require Import Base HeapModel HeapProofs.

Section Mem.
  Context {T : Type}.
  Implicit Types m : mem T.
  Lemma get_put m e x y : get m e = Some y -> exists m', put m e x = Some m' /\ length m' = length m /\ forall a, get m' a = if a =? e then Some x else get m a.
  Proof.
    intros G. assert (L : e < length m) by (unfold get in G; destruct (nth_error m e) eqn:E; [now apply nth_error_Some_lt in E | discriminate]).
    unfold put, wr. destruct (Nat.ltb_spec e (length m)); [| lia]. eexists; split; [reflexivity |]. split; [apply length_upd |]. intros a. unfold get. rewrite nth_error_upd.
    destruct (Nat.ltb_spec e (length m)); [| lia]. rewrite andb_true_r, (Nat.eqb_sym e a). now destruct (a =? e).
  Qed.
  Lemma change_ok f m e x : get m e = Some x -> exists m', change f m e = Some m' /\ length m' = length m /\ forall a, get m' a = if a =? e then Some (f x) else get m a.
  Proof. intros G. unfold change. rewrite G. exact (get_put m e (f x) x G). Qed.

  Definition strip (x : elem T) := (e_dat x, e_loc x, e_next x).
  Definition wf (h : list nat) m : Prop := forall i e, nth_error h i = Some e -> exists x, get m e = Some x /\ e_pos x = Some i.
  (* only the positions of the elements of h differ *)
  Definition keep (h : list nat) m m' : Prop :=
    length m' = length m /\ (forall e, option_map strip (get m' e) = option_map strip (get m e)) /\ (forall e, ~ In e h -> get m' e = get m e).
  Lemma keep_refl h m : keep h m m. Proof. repeat split; auto. Qed.
  Lemma keep_trans h h' a b c : keep h a b -> keep h' b c -> incl h' h -> keep h a c.
  Proof.
    intros (L1 & S1 & F1) (L2 & S2 & F2) I. split; [congruence |]. split; [intros; now rewrite S2 |]. intros e N. rewrite F2; auto.
  Qed.
  Lemma keep_dat h m m' e x : keep h m m' -> get m e = Some x -> exists y, get m' e = Some y /\ strip y = strip x.
  Proof. intros (_ & S & _) G. specialize (S e). rewrite G in S. cbn in S. destruct (get m' e) as [y |]; [| discriminate]. exists y. cbn in S. split; auto. congruence. Qed.
  Lemma wf_in h m e : wf h m -> In e h -> exists x i, get m e = Some x /\ e_pos x = Some i /\ nth_error h i = Some e.
  Proof. intros W I. apply In_nth_error in I. destruct I as [i E]. destruct (W i e E) as (x & G & P). eauto. Qed.
  Lemma wf_nodup h m : wf h m -> NoDup h.
  Proof.
    intros W. apply NoDup_nth_error. intros i j L E. destruct (nth_error_lt h i L) as [e Ei]. rewrite Ei in E. symmetry in E.
    destruct (W i e Ei) as (x & G & P). destruct (W j e E) as (y & G' & P'). rewrite G in G'. inversion G'; subst. congruence.
  Qed.
  Lemma wf_keep h g m m' : wf h m -> keep g m m' -> (forall e, In e h -> ~ In e g) -> wf h m'.
  Proof. intros W (_ & _ & F) D i e E. destruct (W i e E) as (x & G & P). exists x. split; auto. rewrite F; auto. apply D. eapply nth_error_In; eauto. Qed.

  Section Heap.
    Context (less : T -> T -> bool) (lt : nat -> nat -> bool).
    Hypothesis irr : forall a, lt a a = false.
    Hypothesis tr : forall a b c, lt a b = true -> lt b c = true -> lt a c = true.
    Hypothesis ntr : forall a b c, lt a b = false -> lt b c = false -> lt a c = false.
    Definition agrees (h : list nat) m : Prop := forall a b, In a h -> In b h -> compare less m a b = Some (lt a b).
    Lemma agrees_keep h g m m' : agrees h m -> keep g m m' -> agrees h m'.
    Proof.
      intros A K a b Ia Ib. specialize (A a b Ia Ib). unfold compare in *. destruct (get m a) as [x |] eqn:Ga; [| discriminate]. destruct (get m b) as [y |] eqn:Gb; [| discriminate].
      destruct (keep_dat _ _ _ _ _ K Ga) as (x' & -> & Ex). destruct (keep_dat _ _ _ _ _ K Gb) as (y' & -> & Ey). unfold strip in *. inversion Ex. inversion Ey. congruence.
    Qed.
    Lemma agrees_incl h g m : agrees h m -> incl g h -> agrees g m.
    Proof. intros A I a b Ia Ib. apply A; auto. Qed.
    Lemma compare_ok h m i j : agrees h m -> i < length h -> j < length h -> Compare_elements less (h, m) i j = Some (lt (at_ h i) (at_ h j)).
    Proof. intros A Hi Hj. unfold Compare_elements. rewrite !at_nth by auto. apply A; apply nth_In; auto. Qed.

    Lemma notify_ok m e p x : get m e = Some x -> exists m', NotifyIndexChange m e p = Some m' /\ (forall a, get m' a = if a =? e then Some (set_pos p x) else get m a) /\ keep [e] m m'.
    Proof.
      intros G. destruct (change_ok (set_pos p) m e x G) as (m' & E & L & F). exists m'. split; auto. split; auto. split; auto. split.
      - intros a. rewrite F. destruct (Nat.eqb_spec a e) as [-> |]; auto. rewrite G. reflexivity.
      - intros a N. rewrite F. destruct (Nat.eqb_spec a e) as [-> |]; auto. exfalso. apply N. now left.
    Qed.
    Lemma Swap_ok h m i j : wf h m -> i < length h -> j < length h ->
      exists m', Swap_elements i j (h, m) = Some (lswap i j h, m') /\ wf (lswap i j h) m' /\ keep h m m'.
    Proof.
      intros W Hi Hj. unfold Swap_elements. rewrite !at_nth by auto. set (a := at_ h i). set (b := at_ h j).
      pose proof (at_nth h i Hi) as Ei. pose proof (at_nth h j Hj) as Ej. fold a in Ei. fold b in Ej.
      destruct (W j b Ej) as (y & Gb & Pb). destruct (W i a Ei) as (x & Ga & Pa).
      destruct (notify_ok m b (Some i) y Gb) as (m1 & -> & F1 & K1).
      destruct (keep_dat _ _ _ _ _ K1 Ga) as (x1 & Ga1 & _).
      destruct (notify_ok m1 a (Some j) x1 Ga1) as (m2 & -> & F2 & K2).
      exists m2. split; [reflexivity |]. pose proof (wf_nodup h m W) as ND. split.
      - intros k e E. rewrite nth_lswap in E by auto. fold a b in E. destruct (Nat.eqb_spec k j) as [-> | NJ].
        + inversion E; subst e. rewrite F2, Nat.eqb_refl. eexists; split; [reflexivity | reflexivity].
        + destruct (Nat.eqb_spec k i) as [-> | NI].
          * inversion E; subst e. rewrite F2. destruct (Nat.eqb_spec b a) as [E2 |].
            -- exfalso. apply NJ. apply (proj1 (NoDup_nth_error h) ND i j Hi). congruence.
            -- rewrite F1, Nat.eqb_refl. eexists; split; [reflexivity | reflexivity].
          * destruct (W k e E) as (z & Gz & Pz). exists z. split; auto. rewrite F2. destruct (Nat.eqb_spec e a) as [-> |].
            -- exfalso. rewrite Ga in Gz. inversion Gz; subst. rewrite Pa in Pz. inversion Pz. lia.
            -- rewrite F1. destruct (Nat.eqb_spec e b) as [-> |]; auto. exfalso. rewrite Gb in Gz. inversion Gz; subst. rewrite Pb in Pz. inversion Pz. lia.
      - assert (Ia : In a h) by (eapply nth_error_In; eauto). assert (Ib : In b h) by (eapply nth_error_In; eauto).
        destruct K1 as (L1 & S1 & N1), K2 as (L2 & S2 & N2). split; [congruence |]. split; [intros; now rewrite S2 |].
        intros e N. rewrite N2, N1; auto; intros [<- | []]; contradiction.
    Qed.

    Definition result (h : list nat) m (h' : list nat) m' : Prop := Permutation h h' /\ wf h' m' /\ keep h m m'.
    Lemma result_step h m h1 m1 h2 m2 : Permutation h h1 -> keep h m m1 -> result h1 m1 h2 m2 -> result h m h2 m2.
    Proof.
      intros P K (P2 & W2 & K2). split; [etransitivity; eauto |]. split; auto. eapply keep_trans; eauto. intros e I. eapply Permutation_in; [symmetry; exact P | exact I].
    Qed.
    Lemma agrees_swap h m h1 m1 : agrees h m -> Permutation h h1 -> keep h m m1 -> agrees h1 m1.
    Proof. intros A P K. apply agrees_incl with (h := h); [eapply agrees_keep; eauto |]. intros e I. eapply Permutation_in; [symmetry; exact P | exact I]. Qed.

    Lemma SiftUp_ok fuel : forall i h m, i < fuel -> i < length h -> wf h m -> agrees h m -> up_pre lt h i ->
      exists h' m', SiftUp less fuel i (h, m) = Some (h', m') /\ result h m h' m' /\ heap_ok lt h'.
    Proof.
      induction fuel as [| f IH]; intros i h m Hf Hi W A U; [lia |]. cbn [SiftUp].
      destruct (Nat.eqb_spec i 0) as [-> | NZ].
      - exists h, m. split; auto. split; [repeat split; auto |]. apply (up_done lt irr tr ntr h 0 U). auto.
      - pose proof (parent_lt i ltac:(lia)) as P. rewrite (compare_ok h m) by (auto; lia). destruct (lt (at_ h (parent i)) (at_ h i)) eqn:C.
        + destruct (Swap_ok h m (parent i) i W ltac:(lia) Hi) as (m1 & -> & W1 & K1).
          pose proof (lswap_perm (parent i) i h ltac:(lia) Hi) as PM.
          destruct (IH (parent i) (lswap (parent i) i h) m1 ltac:(lia) ltac:(rewrite lswap_length; lia) W1) as (h' & m' & E & R & O).
          * eapply agrees_swap; eauto.
          * apply (up_step lt irr tr ntr h i U ltac:(lia) C).
          * exists h', m'. split; auto. split; auto. eapply result_step; eauto.
        + exists h, m. split; auto. split; [repeat split; auto |]. apply (up_done lt irr tr ntr h i U). auto.
    Qed.

    Lemma SiftDown_ok fuel : forall i h m, length h < fuel + i -> i < length h -> wf h m -> agrees h m -> down_pre lt h i ->
      exists h' m', SiftDown less fuel i (h, m) = Some (h', m') /\ result h m h' m' /\ up_pre lt h' i /\ (i = 0 \/ ord lt h i -> heap_ok lt h').
    Proof.
      induction fuel as [| f IH]; intros i h m Hf Hi W A D; [lia |]. cbn [SiftDown fst].
      destruct (Nat.leb_spec (right_child i) (length h)) as [RC | RC].
      - assert (LC : left_child i < length h) by (unfold left_child, right_child in *; lia).
        assert (K : exists k, (if right_child i <? length h then match Compare_elements less (h, m) (left_child i) (right_child i) with Some c => Some (if c then right_child i else left_child i) | None => None end else Some (left_child i)) = Some k /\ big lt h i k).
        { destruct (Nat.ltb_spec (right_child i) (length h)) as [RL | RL].
          - rewrite (compare_ok h m) by auto. eexists; split; [reflexivity |]. destruct (lt (at_ h (left_child i)) (at_ h (right_child i))) eqn:C.
            + split; [apply parent_right |]. split; [unfold right_child in *; lia |]. intros c Hc E. destruct (child_cases c i ltac:(lia) E) as [-> | ->]; [now apply (asym lt irr tr) | apply irr].
            + split; [apply parent_left |]. split; [unfold left_child in *; lia |]. intros c Hc E. destruct (child_cases c i ltac:(lia) E) as [-> | ->]; [apply irr | auto].
          - eexists; split; [reflexivity |]. split; [apply parent_left |]. split; [unfold left_child in *; lia |]. intros c Hc E. destruct (child_cases c i ltac:(lia) E) as [-> | ->]; [apply irr | lia]. }
        destruct K as (k & -> & B). pose proof B as (Pk & Lk & _). rewrite (compare_ok h m) by (auto; lia).
        destruct (lt (at_ h k) (at_ h i)) eqn:C.
        + exists h, m. split; auto. split; [repeat split; auto |]. assert (U : up_pre lt h i) by (apply (down_stop lt h i D); now apply (big_stop lt irr tr ntr h i k B C)).
          split; auto. apply (up_done lt irr tr ntr h i U).
        + destruct (Swap_ok h m i k W Hi ltac:(lia)) as (m1 & -> & W1 & K1). pose proof (lswap_perm i k h Hi ltac:(lia)) as PM.
          destruct (down_step lt irr tr ntr h i k D B C) as (D' & Ok & _). pose proof (parent_lt k ltac:(lia)).
          destruct (IH k (lswap i k h) m1 ltac:(rewrite lswap_length; lia) ltac:(rewrite lswap_length; lia) W1 ltac:(eapply agrees_swap; eauto) D') as (h' & m' & E & R & _ & O).
          specialize (O (or_intror Ok)). exists h', m'. split; auto. split; [eapply result_step; eauto |]. split; auto. now apply up_pre_heap.
      - exists h, m. split; auto. split; [repeat split; auto |].
        assert (U : up_pre lt h i). { apply (down_stop lt h i D). intros c Hc E. exfalso. destruct (child_cases c i ltac:(lia) E) as [-> | ->]; unfold left_child, right_child in *; lia. }
        split; auto. apply (up_done lt irr tr ntr h i U).
    Qed.

    Lemma sift_ok i h m : i < length h -> wf h m -> agrees h m -> down_pre lt h i ->
      exists h' m', sift less i (h, m) = Some (h', m') /\ result h m h' m' /\ heap_ok lt h'.
    Proof.
      intros Hi W A D. unfold sift. cbn [fst]. destruct (SiftDown_ok (S (length h)) i h m ltac:(lia) Hi W A D) as (h1 & m1 & -> & R1 & U & _).
      destruct R1 as (P1 & W1 & K1).
      destruct (SiftUp_ok (S i) i h1 m1 ltac:(lia) ltac:(now rewrite <- (Permutation_length P1)) W1 ltac:(eapply agrees_swap; eauto) U) as (h2 & m2 & E & R2 & O).
      exists h2, m2. split; auto. split; auto. eapply result_step; eauto.
    Qed.

    Lemma at_app_l h r i : i < length h -> at_ (h ++ r) i = at_ h i.
    Proof. intros. unfold at_. now apply app_nth1. Qed.
    Lemma Push_ok size e h m x : length h < size -> ~ In e h -> get m e = Some x -> wf h m -> agrees (h ++ [e]) m -> heap_ok lt h ->
      exists h' m', Push less size e (h, m) = Some (h', m') /\ Permutation (h ++ [e]) h' /\ wf h' m' /\ keep (h ++ [e]) m m' /\ heap_ok lt h'.
    Proof.
      intros L N G W A O. unfold Push. destruct (Nat.leb_spec size (length h)); [lia |].
      destruct (notify_ok m e (Some (length h)) x G) as (m1 & -> & F1 & K1).
      assert (W1 : wf (h ++ [e]) m1).
      { intros i a E. destruct (Nat.lt_ge_cases i (length h)) as [Li | Li].
        - rewrite nth_error_app1 in E by auto. destruct (W i a E) as (y & Gy & Py). exists y. split; auto. rewrite F1. destruct (Nat.eqb_spec a e) as [-> |]; auto. exfalso. apply N. eapply nth_error_In; eauto.
        - pose proof (nth_error_Some_lt _ _ _ E) as LE. rewrite app_length in LE. cbn in LE. replace i with (length h) in * by lia. rewrite nth_error_app2, Nat.sub_diag in E by lia. inversion E; subst a. rewrite F1, Nat.eqb_refl. eexists; split; [reflexivity | reflexivity]. }
      assert (K1' : keep (h ++ [e]) m m1) by (apply keep_trans with (b := m) (h' := [e]); [apply keep_refl | exact K1 | intros a [<- | []]; apply in_or_app; right; now left]).
      destruct (SiftUp_ok (S (length h)) (length h) (h ++ [e]) m1) as (h' & m' & E & (P & W' & K') & O').
      - lia.
      - rewrite app_length. cbn. lia.
      - auto.
      - eapply agrees_keep; eauto.
      - split.
        + intros j Hj NJ. rewrite app_length in Hj. cbn in Hj. pose proof (parent_lt j ltac:(lia)). unfold ord. rewrite !at_app_l by lia. apply O. lia.
        + intros c _ Hc Hc0 E. rewrite app_length in Hc. cbn in Hc. pose proof (parent_lt c Hc0). lia.
      - exists h', m'. split; auto. split; auto. split; auto. split; auto. eapply keep_trans; eauto. apply incl_refl.
    Qed.

    Lemma Erase_ok i h m : i < length h -> wf h m -> (forall a b, In a h -> In b h -> a <> at_ h i -> b <> at_ h i -> compare less m a b = Some (lt a b)) -> heap_ok lt h ->
      exists h' m', Erase less (Some i) (h, m) = Some (h', m') /\ Permutation h (at_ h i :: h') /\ wf h' m' /\ keep h m m' /\ heap_ok lt h'.
    Proof.
      intros Hi W A O. unfold Erase. cbn [fst]. set (n := length h - 1). assert (Hn : n < length h) by (unfold n; lia).
      destruct (Swap_ok h m i n W Hi Hn) as (m1 & -> & W1 & K1). pose proof (lswap_perm i n h Hi Hn) as PM. set (h1 := lswap i n h) in *.
      assert (En : nth_error h1 n = Some (at_ h i)) by (unfold h1; rewrite nth_lswap by auto; now rewrite Nat.eqb_refl).
      assert (AT1 : forall k, k < n -> at_ h1 k = if k =? i then at_ h n else at_ h k) by (intros k Hk; unfold h1; rewrite at_lswap by auto; destruct (Nat.eqb_spec k n); [lia | reflexivity]).
      assert (L1 : length h1 = length h) by apply lswap_length. clearbody h1.
      unfold PopBack. destruct h1 as [| q r] eqn:Eh; [cbn in L1; lia |]. rewrite <- Eh in *. rewrite L1. fold n.
      rewrite En. destruct (W1 n _ En) as (x & Gx & Px). destruct (notify_ok m1 (at_ h i) None x Gx) as (m2 & -> & F2 & K2).
      set (h2 := firstn n h1). assert (L2 : length h2 = n) by (unfold h2; rewrite firstn_length; lia).
      assert (S2 : h1 = h2 ++ [at_ h i]).
      { unfold h2. rewrite <- (firstn_skipn n h1) at 1. f_equal. apply list_ext. intros k. rewrite nth_error_skipn. destruct k as [| k]; [now rewrite Nat.add_0_r |]. rewrite !nth_error_ge; auto; cbn; lia. }
      pose proof (wf_nodup _ _ W1) as ND. rewrite S2 in ND. apply NoDup_remove_2 in ND as NI. rewrite app_nil_r in NI.
      assert (W2 : wf h2 m2).
      { intros k e E. assert (E1 : nth_error h1 k = Some e) by (rewrite S2; rewrite nth_error_app1; auto; now apply nth_error_Some_lt in E). destruct (W1 k e E1) as (y & Gy & Py). exists y. split; auto. rewrite F2.
        destruct (Nat.eqb_spec e (at_ h i)) as [-> |]; auto. exfalso. apply NI. eapply nth_error_In; eauto. }
      assert (P2 : Permutation h (at_ h i :: h2)) by (etransitivity; [exact PM |]; rewrite S2; symmetry; apply Permutation_cons_append).
      assert (K12 : keep h m m2) by (eapply keep_trans; [exact K1 | exact K2 |]; intros e [<- | []]; eapply nth_error_In; now apply at_nth).
      assert (AT : forall k, k < n -> at_ h2 k = if k =? i then at_ h n else at_ h k).
      { intros k Hk. rewrite <- (at_app_l h2 [at_ h i]) by lia. rewrite <- S2. now apply AT1. }
      cbn [fst]. rewrite L2. destruct (Nat.ltb_spec i n) as [Li | Li].
      - destruct (sift_ok i h2 m2 ltac:(lia) W2) as (h' & m' & E & (P & W' & K') & O').
        + apply agrees_keep with (g := h) (m := m); auto. assert (IN : forall e, In e h2 -> In e h /\ e <> at_ h i) by (intros e I; split; [eapply Permutation_in; [symmetry; exact P2 |]; now right | intros ->; contradiction]).
          intros a b Ia Ib. destruct (IN a Ia), (IN b Ib). now apply A.
        + split.
          * intros j Hj N1 N2. rewrite L2 in Hj. pose proof (parent_lt j ltac:(lia)). unfold ord. rewrite !AT by lia. destruct (Nat.eqb_spec (parent j) i); [lia |]. destruct (Nat.eqb_spec j i); [lia |]. apply O. lia.
          * intros c I0 Hc Hc0 E. rewrite L2 in Hc. pose proof (parent_lt c Hc0). pose proof (parent_lt i I0). rewrite !AT by lia. destruct (Nat.eqb_spec (parent i) i); [lia |]. destruct (Nat.eqb_spec c i); [lia |].
            apply ntr with (b := at_ h i); [apply O; lia |]. pose proof (O c ltac:(lia)) as Oc. unfold ord in Oc. now rewrite E in Oc.
        + exists h', m'. split; auto. split; [etransitivity; [exact P2 |]; now constructor |]. split; auto. split; auto. eapply keep_trans; eauto. intros e I. eapply Permutation_in; [symmetry; exact P2 |]. now right.
      - exists h2, m2. split; auto. split; auto. split; auto. split; auto. intros j Hj. rewrite L2 in Hj. pose proof (parent_lt j ltac:(lia)). unfold ord. rewrite !AT by lia. destruct (Nat.eqb_spec (parent j) i); [lia |]. destruct (Nat.eqb_spec j i); [lia |]. apply O. lia.
    Qed.
  End Heap.
End Mem.
