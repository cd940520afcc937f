(** The two heaps of a rolling quantile. *)
From Verif Require Import Base AccumSpec GrpxSpec HeapModel HeapSpec HeapProofs Heap2Proofs.
From Verif Require Grpx2Proofs.

Section RQ.
  Context {T U : Type} (less : T -> T -> bool) (valid : T -> bool) (uinv : U) (conv : T -> U) (split_ : T -> T -> U).
  Context (index : nat -> nat) (integral : nat -> bool) (W : nat).
  Notation MAX := (index W + 1).
  Notation MIN := (W - (index W + 1)).
  Notation greater_ := (greater less).
  Implicit Types m : mem T.
  Implicit Types s : @rq T.

  (* data and links are the same, and everything but the elements of F *)
  Definition core_ (x : elem T) := (e_dat x, e_next x).
  Definition kept (F : list nat) m m' : Prop :=
    length m' = length m /\ (forall e, option_map core_ (get m' e) = option_map core_ (get m e)) /\ (forall e, ~ In e F -> get m' e = get m e).
  Lemma kept_refl F m : kept F m m. Proof. repeat split; auto. Qed.
  Lemma kept_trans F G a b c : kept F a b -> kept G b c -> kept (F ++ G) a c.
  Proof. intros (L1 & S1 & F1) (L2 & S2 & F2). split; [congruence |]. split; [intros; now rewrite S2 |]. intros e N. rewrite in_app_iff in N. rewrite F2, F1; auto. Qed.
  Lemma kept_incl F G m m' : kept F m m' -> incl F G -> kept G m m'.
  Proof. intros (L & S & N) I. split; auto. split; auto. Qed.
  Lemma keep_kept F m m' : keep F m m' -> kept F m m'.
  Proof.
    intros (L & S & N). split; auto. split; auto. intros e. specialize (S e). destruct (get m' e), (get m e); cbn in *; try discriminate; auto. unfold strip, core_ in *. congruence.
  Qed.
  Lemma kept_get F m m' e x : kept F m m' -> get m e = Some x -> exists y, get m' e = Some y /\ core_ y = core_ x.
  Proof. intros (_ & S & _) G. specialize (S e). rewrite G in S. cbn in S. destruct (get m' e) as [y |]; [| discriminate]. exists y. cbn in S. split; auto. congruence. Qed.
  Lemma kept_compare F m m' a b : kept F m m' -> compare less m' a b = compare less m a b.
  Proof.
    intros (_ & S & _). unfold compare. pose proof (S a) as A. pose proof (S b) as B. unfold core_ in *.
    destruct (get m' a), (get m a); cbn in A; try discriminate; auto. destruct (get m' b), (get m b); cbn in B; try discriminate; auto. congruence.
  Qed.
  Definition loc_of m e : option location := option_map e_loc (get m e).
  Definition rest s s' : Prop := nans s' = nans s /\ oldest s' = oldest s /\ newest s' = newest s.
  Lemma rest_trans a b c : rest a b -> rest b c -> rest a c.
  Proof. unfold rest. intuition congruence. Qed.

  Lemma relocate_ok l e s x : get (elems s) e = Some x ->
    exists m', relocate l e s = Some (set_elems m' s) /\ (forall a, get m' a = if a =? e then Some (set_loc l x) else get (elems s) a) /\ kept [e] (elems s) m'.
  Proof.
    intros G. unfold relocate. destruct (change_ok (set_loc l) (elems s) e x G) as (m' & -> & L & F). exists m'. split; auto. split; auto. split; auto. split.
    - intros a. rewrite F. destruct (Nat.eqb_spec a e) as [-> |]; auto. now rewrite G.
    - intros a N. rewrite F. destruct (Nat.eqb_spec a e) as [-> |]; auto. exfalso. apply N. now left.
  Qed.
  Lemma relocate_wf (m m' : mem T) l e x h : (forall a, get m' a = if a =? e then Some (set_loc l x) else get m a) -> get m e = Some x -> wf h m -> wf h m'.
  Proof.
    intros F G Wf i a E. destruct (Wf i a E) as (y & Gy & Py). rewrite F. destruct (Nat.eqb_spec a e) as [-> |]; eauto. rewrite G in Gy. inversion Gy; subst. eexists; split; [reflexivity | auto].
  Qed.

  Section Lt.
    Context (lt : nat -> nat -> bool).
    Definition swo : Prop := (forall a, lt a a = false) /\ (forall a b c, lt a b = true -> lt b c = true -> lt a c = true) /\ (forall a b c, lt a b = false -> lt b c = false -> lt a c = false).
    Definition gt (a b : nat) : bool := lt b a.
    Hypothesis O : swo.
    Let irr := proj1 O.
    Let tr := proj1 (proj2 O).
    Let ntr := proj2 (proj2 O).
    Lemma girr a : gt a a = false. Proof. apply irr. Qed.
    Lemma gtr a b c : gt a b = true -> gt b c = true -> gt a c = true. Proof. unfold gt. intros A B. exact (tr c b a B A). Qed.
    Lemma gntr a b c : gt a b = false -> gt b c = false -> gt a c = false. Proof. unfold gt. intros A B. exact (ntr c b a B A). Qed.

    (* E: the elements that can be compared *)
    Definition agreesE (E : list nat) m : Prop := forall a b, In a E -> In b E -> compare less m a b = Some (lt a b).
    Lemma agreesE_g E m : agreesE E m -> forall a b, In a E -> In b E -> compare greater_ m a b = Some (gt a b).
    Proof. intros A a b Ia Ib. specialize (A b a Ib Ia). unfold compare, greater, gt in *. destruct (get m a), (get m b); try discriminate. auto. Qed.
    Lemma agreesE_kept E F m m' : agreesE E m -> kept F m m' -> agreesE E m'.
    Proof. intros A K a b Ia Ib. rewrite (kept_compare F m m'); auto. Qed.

    Record core s : Prop := {
      c_max : wf (maxh s) (elems s);
      c_min : wf (minh s) (elems s);
      c_dis : NoDup (maxh s ++ minh s ++ nans s);
      c_lmax : forall e, In e (maxh s) -> loc_of (elems s) e = Some InMaxHeap;
      c_lmin : forall e, In e (minh s) -> loc_of (elems s) e = Some InMinHeap;
      c_lnan : forall e, In e (nans s) -> loc_of (elems s) e = Some InNanList;
      c_hmax : heap_ok lt (maxh s);
      c_hmin : heap_ok gt (minh s) }.
    Definition heaps s : list nat := maxh s ++ minh s.
    Definition cross (A B : list nat) : Prop := forall a b, In a A -> In b B -> lt b a = false.

    Lemma dis_mm s : NoDup (maxh s ++ minh s ++ nans s) -> forall e, In e (maxh s) -> ~ In e (minh s).
    Proof. intros D e I J. apply NoDup_app_iff in D. destruct D as (_ & _ & D). apply (D e I). apply in_or_app. now left. Qed.
    Lemma dis_heaps_nan s : NoDup (maxh s ++ minh s ++ nans s) -> forall e, In e (heaps s) -> ~ In e (nans s).
    Proof. intros D e I J. rewrite app_assoc in D. apply NoDup_app_iff in D. destruct D as (_ & _ & D). now apply (D e I). Qed.
    Lemma loc_kept F m m' e : kept F m m' -> ~ In e F -> loc_of m' e = loc_of m e.
    Proof. intros (_ & _ & N) I. unfold loc_of. now rewrite N. Qed.
    Lemma loc_keep F m m' e : keep F m m' -> loc_of m' e = loc_of m e.
    Proof. intros (_ & S & _). specialize (S e). unfold loc_of, strip in *. destruct (get m' e), (get m e); cbn in *; try discriminate; auto. congruence. Qed.
    Lemma wf_kept h F m m' : wf h m -> kept F m m' -> (forall e, In e h -> ~ In e F) -> wf h m'.
    Proof. intros Wf (_ & _ & N) D i e E. destruct (Wf i e E) as (x & G & P). exists x. split; auto. rewrite N; auto. apply D. eapply nth_error_In; eauto. Qed.

    Lemma push_max E e s x : core s -> agreesE E (elems s) -> incl (heaps s) E -> In e E -> ~ In e (maxh s ++ minh s ++ nans s) -> get (elems s) e = Some x -> length (maxh s) < MAX ->
      exists s', PushToMaxHeap less MAX e s = Some s' /\ core s' /\ Permutation (maxh s ++ [e]) (maxh s') /\ minh s' = minh s /\ rest s s' /\ kept (maxh s ++ [e]) (elems s) (elems s').
    Proof.
      intros C A I Ie N G L. unfold PushToMaxHeap.
      assert (NM : ~ In e (maxh s)) by (intros H; apply N, in_or_app; now left).
      destruct (Push_ok less lt irr tr ntr MAX e (maxh s) (elems s) x L NM G (c_max s C)) as (h' & m' & -> & P & W' & K & O').
      - intros a b Ia Ib. apply A; [apply in_app_or in Ia; destruct Ia as [Ia | [<- | []]] | apply in_app_or in Ib; destruct Ib as [Ib | [<- | []]]]; auto; apply I, in_or_app; auto.
      - apply (c_hmax s C).
      - destruct (keep_dat _ _ _ _ _ K G) as (y & Gy & _).
        destruct (relocate_ok InMaxHeap e (set_max (h', m') s) y Gy) as (m2 & -> & F2 & K2). cbn [elems set_max fst snd] in *.
        exists (set_elems m2 (set_max (h', m') s)). split; auto. pose proof (keep_kept _ _ _ K) as KK.
        assert (K3 : kept (maxh s ++ [e]) (elems s) m2) by (eapply kept_incl; [eapply kept_trans; eauto |]; intros a Ia; rewrite !in_app_iff in *; tauto).
        assert (IN : forall a, In a h' -> In a (maxh s) \/ a = e).
        { intros a Ia. eapply Permutation_in in Ia; [| symmetry; exact P]. apply in_app_or in Ia. destruct Ia as [Ia | [<- | []]]; auto. }
        split; [| repeat split; cbn; auto; apply K3].
        split; cbn [elems maxh minh nans set_elems set_max fst snd].
        + eapply relocate_wf; eauto.
        + eapply wf_kept; [apply (c_min s C) | exact K3 |]. intros a Ia J. apply in_app_or in J. destruct J as [J | [<- | []]].
          * now apply (dis_mm s (c_dis s C) a).
          * apply N. rewrite !in_app_iff. auto.
        + eapply Permutation_NoDup; [apply Permutation_app_tail; exact P |]. rewrite <- app_assoc. cbn.
          apply Permutation_NoDup with (l := e :: maxh s ++ minh s ++ nans s); [apply Permutation_middle | constructor; auto; apply C].
        + intros a Ia. unfold loc_of. rewrite F2. destruct (Nat.eqb_spec a e) as [-> | NE]; auto. fold (loc_of m' a). rewrite (loc_keep _ _ _ a K). apply (c_lmax s C). destruct (IN a Ia); congruence.
        + intros a Ia. rewrite (loc_kept _ _ _ a K3); [now apply (c_lmin s C) |]. intros J. apply in_app_or in J. destruct J as [J | [<- | []]]; [now apply (dis_mm s (c_dis s C) a) |]. apply N. rewrite !in_app_iff. auto.
        + intros a Ia. rewrite (loc_kept _ _ _ a K3); [now apply (c_lnan s C) |]. intros J. apply in_app_or in J. destruct J as [J | [<- | []]]; [apply (dis_heaps_nan s (c_dis s C) a); auto; apply in_or_app; auto |]. apply N. rewrite !in_app_iff. auto.
        + auto.
        + apply (c_hmin s C).
    Qed.
    Lemma push_min E e s x : core s -> agreesE E (elems s) -> incl (heaps s) E -> In e E -> ~ In e (maxh s ++ minh s ++ nans s) -> get (elems s) e = Some x -> length (minh s) < MIN ->
      exists s', PushToMinHeap less MIN e s = Some s' /\ core s' /\ Permutation (minh s ++ [e]) (minh s') /\ maxh s' = maxh s /\ rest s s' /\ kept (minh s ++ [e]) (elems s) (elems s').
    Proof.
      intros C A I Ie N G L. unfold PushToMinHeap.
      assert (NM : ~ In e (minh s)) by (intros H; apply N; rewrite !in_app_iff; auto).
      destruct (Push_ok greater_ gt girr gtr gntr MIN e (minh s) (elems s) x L NM G (c_min s C)) as (h' & m' & -> & P & W' & K & O').
      - intros a b Ia Ib. apply (agreesE_g E _ A); [apply in_app_or in Ia; destruct Ia as [Ia | [<- | []]] | apply in_app_or in Ib; destruct Ib as [Ib | [<- | []]]]; auto; apply I, in_or_app; auto.
      - apply (c_hmin s C).
      - destruct (keep_dat _ _ _ _ _ K G) as (y & Gy & _).
        destruct (relocate_ok InMinHeap e (set_min (h', m') s) y Gy) as (m2 & -> & F2 & K2). cbn [elems set_min fst snd] in *.
        exists (set_elems m2 (set_min (h', m') s)). split; auto. pose proof (keep_kept _ _ _ K) as KK.
        assert (K3 : kept (minh s ++ [e]) (elems s) m2) by (eapply kept_incl; [eapply kept_trans; eauto |]; intros a Ia; rewrite !in_app_iff in *; tauto).
        assert (IN : forall a, In a h' -> In a (minh s) \/ a = e).
        { intros a Ia. eapply Permutation_in in Ia; [| symmetry; exact P]. apply in_app_or in Ia. destruct Ia as [Ia | [<- | []]]; auto. }
        split; [| repeat split; cbn; auto; apply K3].
        split; cbn [elems maxh minh nans set_elems set_min fst snd].
        + eapply wf_kept; [apply (c_max s C) | exact K3 |]. intros a Ia J. apply in_app_or in J. destruct J as [J | [<- | []]].
          * now apply (dis_mm s (c_dis s C) a).
          * apply N. rewrite !in_app_iff. auto.
        + eapply relocate_wf; eauto.
        + eapply Permutation_NoDup; [apply Permutation_app_head, Permutation_app_tail; exact P |]. rewrite <- app_assoc. cbn.
          apply Permutation_NoDup with (l := e :: maxh s ++ minh s ++ nans s); [| constructor; auto; apply C].
          rewrite !app_assoc. apply Permutation_middle.
        + intros a Ia. rewrite (loc_kept _ _ _ a K3); [now apply (c_lmax s C) |]. intros J. apply in_app_or in J. destruct J as [J | [<- | []]]; [now apply (dis_mm s (c_dis s C) a) |]. apply N. rewrite !in_app_iff. auto.
        + intros a Ia. unfold loc_of. rewrite F2. destruct (Nat.eqb_spec a e) as [-> | NE]; auto. fold (loc_of m' a). rewrite (loc_keep _ _ _ a K). apply (c_lmin s C). destruct (IN a Ia); congruence.
        + intros a Ia. rewrite (loc_kept _ _ _ a K3); [now apply (c_lnan s C) |]. intros J. apply in_app_or in J. destruct J as [J | [<- | []]]; [apply (dis_heaps_nan s (c_dis s C) a); auto; apply in_or_app; auto |]. apply N. rewrite !in_app_iff. auto.
        + apply (c_hmax s C).
        + auto.
    Qed.

    (* taking an element out *)
    Lemma erase_max E e s : core s -> agreesE E (elems s) -> (forall a, In a (heaps s) -> a <> e -> In a E) -> In e (maxh s) ->
      exists s', EraseFromCorrespondingHeap less e s = Some s' /\ core s' /\ Permutation (maxh s) (e :: maxh s') /\ minh s' = minh s /\ rest s s' /\ kept (maxh s) (elems s) (elems s').
    Proof.
      intros C A I Ie. unfold EraseFromCorrespondingHeap. destruct (wf_in _ _ _ (c_max s C) Ie) as (x & i & G & P & Ei). rewrite G.
      pose proof (c_lmax s C e Ie) as Lx. unfold loc_of in Lx. rewrite G in Lx. cbn in Lx. inversion Lx as [Lx']. rewrite Lx', P.
      pose proof (nth_error_Some_lt _ _ _ Ei) as Li. pose proof (nth_at _ _ _ Ei) as Ai.
      destruct (Erase_ok less lt irr tr ntr i (maxh s) (elems s) Li (c_max s C)) as (h' & m' & -> & PM & W' & K & O').
      - rewrite Ai. intros a b Ia Ib Na Nb. apply A; apply I; auto; apply in_or_app; auto.
      - apply (c_hmax s C).
      - rewrite Ai in PM. destruct (keep_dat _ _ _ _ _ K G) as (y & Gy & _).
        destruct (relocate_ok NotInStructure e (set_max (h', m') s) y Gy) as (m2 & -> & F2 & K2). cbn [elems set_max fst snd] in *.
        exists (set_elems m2 (set_max (h', m') s)). split; auto. pose proof (keep_kept _ _ _ K) as KK.
        assert (K3 : kept (maxh s) (elems s) m2) by (eapply kept_incl; [eapply kept_trans; eauto |]; intros a Ia; rewrite in_app_iff in Ia; destruct Ia as [Ia | [<- | []]]; auto).
        pose proof (wf_nodup _ _ (c_max s C)) as ND. pose proof (Permutation_NoDup PM ND) as ND'. apply NoDup_cons_iff in ND'. destruct ND' as [NI ND2].
        assert (IN : forall a, In a h' -> In a (maxh s) /\ a <> e) by (intros a Ia; split; [eapply Permutation_in; [symmetry; exact PM |]; now right | intros ->; contradiction]).
        split; [| repeat split; cbn; auto; apply K3].
        split; cbn [elems maxh minh nans set_elems set_max fst snd].
        + eapply relocate_wf; eauto.
        + eapply wf_kept; [apply (c_min s C) | exact K3 |]. intros a Ia J. now apply (dis_mm s (c_dis s C) a).
        + pose proof (c_dis s C) as D. pose proof (Permutation_NoDup (Permutation_app_tail (minh s ++ nans s) PM) D) as D'. cbn in D'. now inversion D'.
        + intros a Ia. destruct (IN a Ia) as [Ja NE]. unfold loc_of. rewrite F2. destruct (Nat.eqb_spec a e) as [-> |]; [congruence |]. fold (loc_of m' a). rewrite (loc_keep _ _ _ a K). now apply (c_lmax s C).
        + intros a Ia. rewrite (loc_kept _ _ _ a K3); [now apply (c_lmin s C) |]. intros J. now apply (dis_mm s (c_dis s C) a).
        + intros a Ia. rewrite (loc_kept _ _ _ a K3); [now apply (c_lnan s C) |]. intros J. apply (dis_heaps_nan s (c_dis s C) a); auto. apply in_or_app; auto.
        + auto.
        + apply (c_hmin s C).
    Qed.
    Lemma erase_min E e s : core s -> agreesE E (elems s) -> (forall a, In a (heaps s) -> a <> e -> In a E) -> In e (minh s) ->
      exists s', EraseFromCorrespondingHeap less e s = Some s' /\ core s' /\ Permutation (minh s) (e :: minh s') /\ maxh s' = maxh s /\ rest s s' /\ kept (minh s) (elems s) (elems s').
    Proof.
      intros C A I Ie. unfold EraseFromCorrespondingHeap. destruct (wf_in _ _ _ (c_min s C) Ie) as (x & i & G & P & Ei). rewrite G.
      pose proof (c_lmin s C e Ie) as Lx. unfold loc_of in Lx. rewrite G in Lx. cbn in Lx. inversion Lx as [Lx']. rewrite Lx', P.
      pose proof (nth_error_Some_lt _ _ _ Ei) as Li. pose proof (nth_at _ _ _ Ei) as Ai.
      destruct (Erase_ok greater_ gt girr gtr gntr i (minh s) (elems s) Li (c_min s C)) as (h' & m' & -> & PM & W' & K & O').
      - rewrite Ai. intros a b Ia Ib Na Nb. apply (agreesE_g E _ A); apply I; auto; apply in_or_app; auto.
      - apply (c_hmin s C).
      - rewrite Ai in PM. destruct (keep_dat _ _ _ _ _ K G) as (y & Gy & _).
        destruct (relocate_ok NotInStructure e (set_min (h', m') s) y Gy) as (m2 & -> & F2 & K2). cbn [elems set_min fst snd] in *.
        exists (set_elems m2 (set_min (h', m') s)). split; auto. pose proof (keep_kept _ _ _ K) as KK.
        assert (K3 : kept (minh s) (elems s) m2) by (eapply kept_incl; [eapply kept_trans; eauto |]; intros a Ia; rewrite in_app_iff in Ia; destruct Ia as [Ia | [<- | []]]; auto).
        pose proof (wf_nodup _ _ (c_min s C)) as ND. pose proof (Permutation_NoDup PM ND) as ND'. apply NoDup_cons_iff in ND'. destruct ND' as [NI ND2].
        assert (IN : forall a, In a h' -> In a (minh s) /\ a <> e) by (intros a Ia; split; [eapply Permutation_in; [symmetry; exact PM |]; now right | intros ->; contradiction]).
        split; [| repeat split; cbn; auto; apply K3].
        split; cbn [elems maxh minh nans set_elems set_min fst snd].
        + eapply wf_kept; [apply (c_max s C) | exact K3 |]. intros a Ia J. now apply (dis_mm s (c_dis s C) a).
        + eapply relocate_wf; eauto.
        + pose proof (c_dis s C) as D. assert (Q : Permutation (maxh s ++ minh s ++ nans s) (e :: maxh s ++ h' ++ nans s)).
          { rewrite (Permutation_app_tail (nans s) PM). cbn. symmetry. apply Permutation_middle. }
          pose proof (Permutation_NoDup Q D) as D'. now inversion D'.
        + intros a Ia. rewrite (loc_kept _ _ _ a K3); [now apply (c_lmax s C) |]. intros J. now apply (dis_mm s (c_dis s C) a).
        + intros a Ia. destruct (IN a Ia) as [Ja NE]. unfold loc_of. rewrite F2. destruct (Nat.eqb_spec a e) as [-> |]; [congruence |]. fold (loc_of m' a). rewrite (loc_keep _ _ _ a K). now apply (c_lmin s C).
        + intros a Ia. rewrite (loc_kept _ _ _ a K3); [now apply (c_lnan s C) |]. intros J. apply (dis_heaps_nan s (c_dis s C) a); auto. apply in_or_app; auto.
        + apply (c_hmax s C).
        + auto.
    Qed.

    Lemma cross_perm A B A' B' : cross A B -> Permutation A A' -> Permutation B B' -> cross A' B'.
    Proof. intros H P Q a b Ia Ib. apply H; [eapply Permutation_in; [symmetry; exact P |] | eapply Permutation_in; [symmetry; exact Q |]]; auto. Qed.
    Lemma in_at (h : list nat) e : In e h -> exists i, i < length h /\ at_ h i = e.
    Proof. intros H. apply In_nth_error in H. destruct H as [i H]. exists i. split; [now apply nth_error_Some_lt in H | now apply nth_at]. Qed.
    Lemma top_max a h e : heap_ok lt (a :: h) -> In e (a :: h) -> lt a e = false.
    Proof. intros H I. destruct (in_at _ _ I) as (i & L & <-). exact (head_max lt irr tr ntr _ H i L). Qed.
    Lemma top_min b h e : heap_ok gt (b :: h) -> In e (b :: h) -> lt e b = false.
    Proof. intros H I. destruct (in_at _ _ I) as (i & L & <-). exact (head_max gt girr gtr gntr _ H i L). Qed.
    Lemma head_pre (R : nat -> nat -> bool) a b h : heap_ok R (b :: h) -> down_pre R (a :: h) 0.
    Proof.
      intros H. split; [| intros c I0; lia]. intros j Hj N1 N2. specialize (H j Hj). unfold ord, at_ in *. destruct j as [| j]; [lia |]. destruct (parent (S j)) as [| q] eqn:E; [lia |]. exact H.
    Qed.

    Lemma swap_heads E e s : core s -> agreesE E (elems s) -> incl (heaps s) E ->
      (forall x y, In x (maxh s) -> In y (minh s) -> x <> e -> y <> e -> lt y x = false) ->
      exists s', PossiblySwapHeapHeads less s = Some s' /\ core s' /\ cross (maxh s') (minh s') /\ Permutation (heaps s) (heaps s') /\
        length (maxh s') = length (maxh s) /\ length (minh s') = length (minh s) /\ rest s s' /\ kept (heaps s) (elems s) (elems s').
    Proof.
      intros C A I X. unfold PossiblySwapHeapHeads.
      assert (ID : forall s0 : rq, s0 = s -> cross (maxh s) (minh s) -> exists s', Some s0 = Some s' /\ core s' /\ cross (maxh s') (minh s') /\ Permutation (heaps s) (heaps s') /\
        length (maxh s') = length (maxh s) /\ length (minh s') = length (minh s) /\ rest s s' /\ kept (heaps s) (elems s) (elems s')).
      { intros s0 -> H. exists s. repeat split; auto; apply C. }
      destruct (minh s) as [| b mins] eqn:EB; [apply ID; auto; intros ? ? ? [] |].
      destruct (maxh s) as [| a maxs] eqn:EA; [apply ID; auto; intros ? ? [] |].
      assert (Ia : In a E) by (apply I; unfold heaps; rewrite EA; now left).
      assert (Ib : In b E) by (apply I; unfold heaps; rewrite EA, EB; apply in_or_app; right; now left).
      rewrite (A b a Ib Ia). pose proof (c_hmax s C) as HX. rewrite EA in HX. pose proof (c_hmin s C) as HN. rewrite EB in HN.
      destruct (lt b a) eqn:LT.
      - assert (TC : cross maxs mins).
        { pose proof (c_dis s C) as D. rewrite EA, EB in D. cbn in D. apply NoDup_cons_iff in D. destruct D as [Na D]. apply NoDup_remove_2 in D as Nb.
          intros x y Ix Iy. apply X; try (now right); intros ->.
          - assert (NA : a <> e) by (intros ->; apply Na, in_or_app; now left). assert (NB : b <> e) by (intros ->; apply Nb, in_or_app; now left).
            pose proof (X a b (or_introl eq_refl) (or_introl eq_refl) NA NB). congruence.
          - assert (NA : a <> e) by (intros ->; apply Na; rewrite in_app_iff; right; right; rewrite in_app_iff; now left). assert (NB : b <> e) by (intros ->; apply Nb; rewrite !in_app_iff; tauto).
            pose proof (X a b (or_introl eq_refl) (or_introl eq_refl) NA NB). congruence. }
        pose proof (c_dis s C) as D. rewrite EA, EB in D.
        assert (DM : forall q, In q (a :: maxs) -> ~ In q (b :: mins)) by (pose proof (dis_mm s (c_dis s C)) as DD; rewrite EA, EB in DD; exact DD).
        assert (NAB : a <> b) by (intros ->; apply (DM b); now left).
        pose proof (c_max s C) as WX. rewrite EA in WX. pose proof (c_min s C) as WN. rewrite EB in WN.
        destruct (WX 0 a eq_refl) as (xa & Ga & Pa). destruct (WN 0 b eq_refl) as (xb & Gb & Pb).
        destruct (change_ok (set_loc InMinHeap) (elems s) a xa Ga) as (m1 & -> & L1 & F1).
        assert (Gb1 : get m1 b = Some xb) by (rewrite F1; destruct (Nat.eqb_spec b a); [congruence | auto]).
        destruct (change_ok (set_loc InMaxHeap) m1 b xb Gb1) as (m2 & -> & L2 & F2).
        assert (K2 : kept [a; b] (elems s) m2).
        { split; [congruence |]. split.
          - intros q. rewrite F2. destruct (Nat.eqb_spec q b) as [-> |]; [now rewrite Gb |]. rewrite F1. destruct (Nat.eqb_spec q a) as [-> |]; [now rewrite Ga | auto].
          - intros q N. rewrite F2. destruct (Nat.eqb_spec q b) as [-> |]; [exfalso; apply N; cbn; auto |]. rewrite F1. destruct (Nat.eqb_spec q a) as [-> |]; [exfalso; apply N; cbn; auto | auto]. }
        assert (NDX : ~ In a maxs /\ NoDup maxs) by (apply NoDup_cons_iff; now apply (wf_nodup _ (elems s))). destruct NDX as [NaX NDX].
        assert (NDN : ~ In b mins /\ NoDup mins) by (apply NoDup_cons_iff; now apply (wf_nodup _ (elems s))). destruct NDN as [NbN NDN].
        assert (NbX : ~ In b maxs) by (intros J; apply (DM b); [now right | now left]).
        assert (NaN_ : ~ In a mins) by (intros J; apply (DM a); [now left | now right]).
        assert (WN2 : wf (a :: mins) m2).
        { intros k q Ek. destruct k as [| k].
          - inversion Ek; subst q. rewrite F2. destruct (Nat.eqb_spec a b); [congruence |]. rewrite F1, Nat.eqb_refl. eexists; split; [reflexivity | exact Pa].
          - assert (Iq : In q mins) by (eapply nth_error_In; exact Ek). destruct (WN (S k) q Ek) as (z & Gz & Pz). exists z. split; auto. destruct K2 as (_ & _ & K2). rewrite K2; auto. intros [<- | [<- | []]]; contradiction. }
        assert (WX2 : wf (b :: maxs) m2).
        { intros k q Ek. destruct k as [| k].
          - inversion Ek; subst q. rewrite F2, Nat.eqb_refl. eexists; split; [reflexivity | exact Pb].
          - assert (Iq : In q maxs) by (eapply nth_error_In; exact Ek). destruct (WX (S k) q Ek) as (z & Gz & Pz). exists z. split; auto. destruct K2 as (_ & _ & K2). rewrite K2; auto. intros [<- | [<- | []]]; contradiction. }
        assert (IE : forall q, In q (a :: maxs) \/ In q (b :: mins) -> In q E) by (intros q Hq; apply I; unfold heaps; rewrite EA, EB; apply in_or_app; auto).
        assert (A2 : agreesE E m2) by (eapply agreesE_kept; eauto).
        cbn [ApplyElementChange].
        destruct (sift_ok greater_ gt girr gtr gntr 0 (a :: mins) m2) as (h1 & m3 & -> & (P1 & W1 & K3) & O1).
        { cbn; lia. } { auto. } { intros p q Hp Hq. apply (agreesE_g E _ A2); apply IE; [destruct Hp as [<- | Hp] | destruct Hq as [<- | Hq]]; cbn; auto. } { eapply head_pre; eauto. }
        cbn [snd].
        assert (DS : forall q, In q (b :: maxs) -> ~ In q (a :: mins)).
        { intros q [<- | J] [K | K]; try congruence; try contradiction; first [subst q; contradiction | apply (DM q); now right]. }
        assert (A3 : agreesE E m3) by (eapply agreesE_kept; [exact A2 | apply keep_kept; exact K3]).
        destruct (sift_ok less lt irr tr ntr 0 (b :: maxs) m3) as (h2 & m4 & -> & (P2 & W2 & K4) & O2).
        { cbn; lia. } { eapply wf_keep; eauto. } { intros p q Hp Hq. apply A3; apply IE; [destruct Hp as [<- | Hp] | destruct Hq as [<- | Hq]]; cbn; auto. } { eapply head_pre; eauto. }
        eexists; split; [reflexivity |].
        assert (I1 : forall q, In q h1 -> In q (a :: mins)) by (intros q J; eapply Permutation_in; [symmetry; exact P1 | exact J]).
        assert (I2 : forall q, In q h2 -> In q (b :: maxs)) by (intros q J; eapply Permutation_in; [symmetry; exact P2 | exact J]).
        assert (LOC : forall q, loc_of m4 q = loc_of m2 q) by (intros q; rewrite (loc_keep _ _ _ q K4); apply (loc_keep _ _ _ q K3)).
        assert (KALL : kept (heaps s) (elems s) m4).
        { eapply kept_incl; [eapply kept_trans; [eapply kept_trans; [exact K2 | apply keep_kept; exact K3] | apply keep_kept; exact K4] |]. unfold heaps. rewrite EA, EB. intros q. rewrite !in_app_iff. cbn. tauto. }
        assert (PH : Permutation (heaps s) (h2 ++ h1)).
        { unfold heaps. rewrite EA, EB, <- P1, <- P2. cbn. etransitivity; [apply perm_skip; symmetry; apply Permutation_middle |]. rewrite perm_swap. apply perm_skip. apply Permutation_middle. }
        repeat match goal with |- _ /\ _ => split end; cbn [elems maxh minh nans oldest newest set_max set_min fst snd]; auto.
        + split; cbn [elems maxh minh nans oldest newest set_max set_min fst snd]; auto.
          * eapply wf_keep; [exact W1 | exact K4 |]. intros q J K. exact (DS q K (I1 q J)).
          * pose proof (c_dis s C) as DD. rewrite app_assoc in DD. rewrite app_assoc. eapply Permutation_NoDup; [apply Permutation_app_tail; exact PH |]. exact DD.
          * intros q J. rewrite LOC. unfold loc_of. rewrite F2. destruct (I2 q J) as [<- | J']; [rewrite Nat.eqb_refl; reflexivity |]. destruct (Nat.eqb_spec q b); [subst; contradiction |]. rewrite F1. destruct (Nat.eqb_spec q a); [subst; contradiction |].
            apply (c_lmax s C). rewrite EA. now right.
          * intros q J. rewrite LOC. unfold loc_of. rewrite F2. destruct (I1 q J) as [<- | J'].
            -- destruct (Nat.eqb_spec a b); [congruence |]. rewrite F1, Nat.eqb_refl. reflexivity.
            -- destruct (Nat.eqb_spec q b); [subst; contradiction |]. rewrite F1. destruct (Nat.eqb_spec q a); [subst; contradiction |]. apply (c_lmin s C). rewrite EB. now right.
          * intros q J. rewrite (loc_kept _ _ _ q KALL); [now apply (c_lnan s C) |]. intros K. now apply (dis_heaps_nan s (c_dis s C) q).
        + eapply cross_perm; [| exact P2 | exact P1]. intros x y [<- | Jx] [<- | Jy].
          * now apply (asym lt irr tr).
          * apply (top_min b mins); auto. now right.
          * apply (top_max a maxs); auto. now right.
          * now apply TC.
        + rewrite <- (Permutation_length P2). reflexivity.
        + rewrite <- (Permutation_length P1). reflexivity.
        + repeat split.
      - apply ID; auto. intros x y Jx Jy. apply ntr with (b := b); [apply (top_min b mins); auto |]. apply ntr with (b := a); auto. apply (top_max a maxs); auto.
    Qed.
  End Lt.
End RQ.
