(** The rolling quantile: updates and the reported value. *)
From Verif Require Import Base AccumSpec GrpxSpec HeapModel HeapGrpModel HeapSpec HeapProofs Heap2Proofs Heap3Proofs Heap4Proofs Heap5Proofs.
From Verif Require Grpx2Proofs Accum2Proofs RollSpec.

Lemma values_length {T} (m : mem T) h v : values m h v -> length h = length v.
Proof. intros V. apply (f_equal (@length _)) in V. now rewrite !map_length in V. Qed.
Lemma values_nth {T} (m : mem T) h v i e : values m h v -> nth_error h i = Some e -> exists x, get m e = Some x /\ nth_error v i = Some (e_dat x).
Proof.
  intros V E. apply (f_equal (fun l => nth_error l i)) in V. rewrite !nth_error_map, E in V. cbn in V. destruct (nth_error v i) as [d |]; [| discriminate]. cbn in V.
  destruct (get m e) as [x |]; [| discriminate]. cbn in V. injection V as <-. eauto.
Qed.
Lemma values_cons {T} (m : mem T) e h d v x : get m e = Some x -> e_dat x = d -> values m h v -> values m (e :: h) (d :: v).
Proof. intros G D V. unfold values in *. cbn. rewrite G, V. cbn. congruence. Qed.
Lemma values_app {T} (m : mem T) h h' v v' : values m h v -> values m h' v' -> values m (h ++ h') (v ++ v').
Proof. unfold values. intros A B. rewrite !map_app. congruence. Qed.
Lemma values_ext {T} (m m' : mem T) h v : (forall e, In e h -> option_map e_dat (get m' e) = option_map e_dat (get m e)) -> values m h v -> values m' h v.
Proof. intros A V. unfold values in *. rewrite <- V. apply map_ext_in. exact A. Qed.
Lemma values_ex {T} (m : mem T) h : (forall e, In e h -> exists x, get m e = Some x) -> exists v, values m h v.
Proof.
  induction h as [| e h IH]; intros A; [exists []; reflexivity |]. destruct IH as (v & V); [intros; apply A; now right |]. destruct (A e (or_introl eq_refl)) as (x & G).
  exists (e_dat x :: v). eapply values_cons; eauto.
Qed.
Lemma values_perm {T} (m : mem T) h h' v v' : Permutation h h' -> values m h v -> values m h' v' -> Permutation v v'.
Proof.
  intros P A B. unfold values in *. assert (Q : Permutation (map Some v) (map Some v')) by (rewrite <- A, <- B; now apply Permutation_map).
  clear - Q. revert v' Q. induction v as [| a v IH]; intros v' Q; cbn in Q.
  - apply Permutation_nil in Q. destruct v'; [constructor | discriminate].
  - assert (I : In (Some a) (map Some v')) by (eapply Permutation_in; [exact Q | now left]). apply in_map_iff in I. destruct I as (b & E & I). injection E as ->.
    apply in_split in I. destruct I as (u & w & ->). rewrite map_app in Q. cbn in Q. apply Permutation_cons_app_inv in Q. rewrite <- map_app in Q. apply IH in Q. now apply Permutation_cons_app.
Qed.
Lemma values_in {T} (m : mem T) h v d : values m h v -> In d v -> exists e x, In e h /\ get m e = Some x /\ e_dat x = d.
Proof.
  intros V I. assert (J : In (Some d) (map Some v)) by now apply in_map. rewrite <- V in J. apply in_map_iff in J. destruct J as (e & E & J).
  destruct (get m e) as [x |] eqn:G; [| discriminate]. exists e, x. cbn in E. injection E as E. auto.
Qed.

Section RQ.
  Context {T U : Type} (less : T -> T -> bool) (valid : T -> bool) (uinv : U) (conv : T -> U) (split_ : T -> T -> U).
  Context (index : nat -> nat) (integral : nat -> bool) (W : nat).
  Notation MAX := (index W + 1).
  Notation MIN := (W - (index W + 1)).
  Implicit Types m : mem T.
  Hypothesis IX : index_ok index integral.
  Hypothesis OK : order_ok valid less.
  Hypothesis W2 : 2 <= W.
  Notation INV l s := (exists ring, inv less valid index W l s ring).
  Notation Upd := (Update less valid uinv conv split_ index integral W MAX MIN).
  Notation GetQ := (GetQuantile uinv conv split_ integral).

  Lemma inv_total l (s : rq) ring : inv less valid index W l s ring -> total_elements s = length ring /\ length ring = Nat.min W (length l).
  Proof.
    intros I. unfold total_elements, total_non_nan_elements. rewrite (Permutation_length (i_perm _ _ _ _ _ _ _ I)), !app_length. split; [lia |].
    pose proof (values_length _ _ _ (r_val _ _ _ _ (i_ring _ _ _ _ _ _ _ I))) as V. rewrite lastw_length in V. rewrite <- V.
    rewrite (Permutation_length (i_perm _ _ _ _ _ _ _ I)), !app_length. lia.
  Qed.
  Lemma inv_start (m : mem T) : length m = W -> INV [] (start_with m).
  Proof.
    intros LM. exists []. split; cbn; auto.
    - split; cbn; try easy; try constructor.
    - easy.
    - easy.
    - split; [| split; [intros a b [] | left; reflexivity]]. split; cbn; try easy; try constructor; try (intros [|]; discriminate).
  Qed.

  Lemma inv_init : INV [] (rq_init W).
  Proof. apply (inv_start (repeat None W)). apply repeat_length. Qed.

  (* ** The window is full *)
  Lemma update_full l (s : rq) ring d : inv less valid index W l s ring -> W <= length l ->
    exists s2, NanUpdateFull less valid uinv conv split_ index integral MAX MIN d s = (do u <- GetQ s2; Some (u, s2)) /\ INV (l ++ [d]) s2.
  Proof.
    intros I L. destruct (inv_total _ _ _ I) as [_ LR]. rewrite Nat.min_l in LR by auto.
    pose proof (i_ring _ _ _ _ _ _ _ I) as R. pose proof (i_perm _ _ _ _ _ _ _ I) as P.
    destruct ring as [| e r]; [cbn in LR; lia |]. destruct r as [| e2 r']; [cbn in LR; lia |]. set (r := e2 :: r') in *.
    unfold NanUpdateFull. rewrite (i_old _ _ _ _ _ _ _ I). cbn [hd_error].
    destruct (values_nth _ _ _ 0 e (r_val _ _ _ _ R) eq_refl) as (x & G & VX). rewrite G.
    destruct (change_ok (set_dat d) (elems s) e x G) as (m1 & -> & L1 & G1).
    set (n := at_ (e :: r) (length r)).
    assert (EN : nth_error (e :: r) (length r) = Some n) by (apply at_nth; cbn; lia).
    assert (NEW : newest s = Some n) by (rewrite (i_new _ _ _ _ _ _ _ I), <- EN; f_equal; cbn [length]; lia).
    rewrite NEW. pose proof (r_nd _ _ _ _ R) as ND.
    assert (NE : n <> e).
    { intros H. rewrite H in EN. apply NoDup_cons_iff in ND. destruct ND as [ND _]. apply ND. unfold r in *. cbn [length nth_error] in EN. now apply nth_error_In in EN. }
    destruct (values_nth _ _ _ _ _ (r_val _ _ _ _ R) EN) as (xn & Gn & _).
    assert (Gn1 : get m1 n = Some xn) by (rewrite G1; destruct (Nat.eqb_spec n e); [congruence | auto]).
    destruct (change_ok (set_next (Some e)) m1 n xn Gn1) as (m2 & -> & L2 & G2).
    assert (GE : get m2 e = Some (set_dat d x)) by (rewrite G2, G1, Nat.eqb_refl; destruct (Nat.eqb_spec e n); [congruence | auto]).
    assert (GN : get m2 n = Some (set_next (Some e) xn)) by (rewrite G2, Nat.eqb_refl; auto).
    assert (GO : forall a, a <> e -> a <> n -> get m2 a = get (elems s) a).
    { intros a A B. rewrite G2, G1. destruct (Nat.eqb_spec a n); [congruence |]. destruct (Nat.eqb_spec a e); [congruence | auto]. }
    assert (GD : forall a, a <> e -> option_map e_dat (get m2 a) = option_map e_dat (get (elems s) a)).
    { intros a A. destruct (Nat.eq_dec a n) as [-> | B]; [rewrite GN, Gn; reflexivity | now rewrite GO]. }
    assert (PL : placed (maxh s ++ minh s ++ nans s) (elems s) m2).
    { intros a y _ Ga. destruct (Nat.eq_dec a e) as [-> | A]; [| destruct (Nat.eq_dec a n) as [-> | B]].
      - rewrite GE. eexists. split; [reflexivity |]. rewrite G in Ga. injection Ga as <-. reflexivity.
      - rewrite GN. eexists. split; [reflexivity |]. rewrite Gn in Ga. injection Ga as <-. reflexivity.
      - rewrite GO by auto. eauto. }
    assert (GG : forall a, a <> e -> good valid m2 a = good valid (elems s) a).
    { intros a A. pose proof (GD a A) as X. unfold good. destruct (get m2 a), (get (elems s) a); cbn in X; try discriminate; auto. injection X as ->. reflexivity. }
    assert (GV : forall a, a <> e -> vat valid m2 a = vat valid (elems s) a).
    { intros a A. pose proof (GD a A) as X. unfold vat. destruct (get m2 a), (get (elems s) a); cbn in X |- *; try discriminate; auto. injection X as ->. reflexivity. }
    set (s1 := set_ends (e_next x) (Some e) (set_elems m2 s)).
    destruct (i_full _ _ _ _ _ _ _ I) as (C & X & SZ).
    destruct (full_change less valid conv split_ index integral W IX OK W2 e d (elems s) s1 (e :: r) (set_dat d x)) as (s2 & F & E2 & F2 & K2 & O2 & N2 & P2 & H2 & V2).
    - apply core_placed; auto.
    - exact X.
    - exact SZ.
    - exact P.
    - exact LR.
    - now left.
    - exact GE.
    - exact GG.
    - intros a Ia A. cbn [elems s1 set_ends set_elems]. rewrite GV by auto. now apply (i_heap _ _ _ _ _ _ _ I).
    - intros a Ia A. cbn [elems s1 set_ends set_elems]. rewrite GV by auto. now apply (i_nan _ _ _ _ _ _ _ I).
    - unfold vat. cbn [elems s1 set_ends set_elems]. now rewrite GE.
    - exists s2. cbn [e_loc set_dat] in E2. unfold full_part in E2. fold s1. split; [now rewrite E2 |].
      assert (PR : Permutation (e :: r) (r ++ [e])) by apply Permutation_cons_append.
      exists (r ++ [e]). eapply (finish less valid index W) with (s1 := s1) (F := F); auto.
      + cbn. rewrite L2, L1. apply I.
      + split; cbn [elems s1 set_ends set_elems].
        * pose proof (r_val _ _ _ _ R) as V. destruct (lastw W l) as [| a v] eqn:EL; [apply values_length in V; discriminate |].
          rewrite (lastw_full W l d a v ltac:(lia) L EL). unfold values in V. cbn [map] in V. injection V as _ V. apply values_app.
          -- eapply values_ext; [| exact V]. intros c Ic. apply GD. intros ->. apply NoDup_cons_iff in ND. tauto.
          -- eapply values_cons; [exact GE | reflexivity | reflexivity].
        * eapply Permutation_NoDup; [exact PR | exact ND].
        * intros a Ia. rewrite <- (Permutation_length PR). apply (r_lt _ _ _ _ R). eapply Permutation_in; [symmetry; exact PR | exact Ia].
        * intros i a b A B. destruct (Nat.lt_ge_cases (S i) (length r)) as [LT | GE'].
          -- rewrite nth_error_app1 in A, B by lia. destruct (r_link _ _ _ _ R (S i) a b A B) as (y & Gy & Ny). exists y. split; auto. rewrite GO; auto.
             ++ intros ->. apply NoDup_cons_iff in ND. destruct ND as [ND _]. apply ND. now apply nth_error_In in A.
             ++ intros ->. assert (Q : S i = length r); [| lia]. apply (proj1 (NoDup_nth_error (e :: r)) ND (S i) (length r)); [cbn [length]; lia | rewrite EN; exact A].
          -- assert (S i = length r) by (apply nth_error_Some_lt in B; rewrite app_length in B; cbn [length] in B; lia). rewrite nth_error_app1 in A by lia. rewrite nth_error_app2 in B by lia.
             replace (S i - length r) with 0 in B by lia. cbn in B. injection B as <-. rewrite <- H in EN. cbn [nth_error] in EN. rewrite A in EN. injection EN as ->. eexists. split; [exact GN | reflexivity].
      + cbn. destruct (r_link _ _ _ _ R 0 e e2 eq_refl eq_refl) as (y & Gy & Ny). rewrite G in Gy. injection Gy as <-. exact Ny.
      + cbn [newest s1 set_ends]. rewrite app_length. cbn [length]. rewrite nth_error_app2 by lia. replace (length r + 1 - 1 - length r) with 0 by lia. reflexivity.
      + now rewrite <- PR.
  Qed.

  (* ** The window is not full *)
  Lemma update_not_full l (s : rq) ring d : inv less valid index W l s ring -> length l < W ->
    exists s2, NanUpdateNotFull less valid uinv conv split_ index integral MAX MIN d s = (do u <- GetQ s2; Some (u, s2)) /\ INV (l ++ [d]) s2.
  Proof.
    intros I L. destruct (inv_total _ _ _ I) as [TE LR]. rewrite Nat.min_r in LR by lia.
    pose proof (i_ring _ _ _ _ _ _ _ I) as R. pose proof (i_perm _ _ _ _ _ _ _ I) as P. pose proof (i_len _ _ _ _ _ _ _ I) as LE.
    unfold NanUpdateNotFull. rewrite TE. set (e := length ring) in *. set (x := {| e_dat := d; e_pos := None; e_loc := NotInStructure; e_next := None |}).
    assert (exists m1, put (elems s) e x = Some m1 /\ length m1 = length (elems s) /\ forall a, get m1 a = if a =? e then Some x else get (elems s) a) as (m1 & -> & L1 & G1).
    { unfold put, wr. destruct (Nat.ltb_spec e (length (elems s))) as [Q | Q]; [| lia]. eexists. split; [reflexivity |]. split; [apply length_upd |]. intros a. unfold get. 
      destruct (Nat.eqb_spec a e) as [-> | NE]; [now rewrite nth_error_upd_eq | now rewrite nth_error_upd_neq by auto]. }
    assert (NR : ~ In e ring) by (intros H; apply (r_lt _ _ _ _ R) in H; unfold e in H; lia).
    assert (EX : exists s1, (if e =? 0 then Some (set_ends (Some e) (Some e) (set_elems m1 s)) else do n <- newest s; do q <- change (set_next (Some e)) m1 n; Some (set_ends (oldest s) (Some e) (set_elems q s))) = Some s1 /\
      maxh s1 = maxh s /\ minh s1 = minh s /\ nans s1 = nans s /\ oldest s1 = hd_error (ring ++ [e]) /\ newest s1 = Some e /\ length (elems s1) = W /\ get (elems s1) e = Some x /\
      placed (maxh s ++ minh s ++ nans s) (elems s) (elems s1) /\ (forall a, a <> e -> option_map e_dat (get (elems s1) a) = option_map e_dat (get (elems s) a)) /\
      (forall i a b, nth_error (ring ++ [e]) i = Some a -> nth_error (ring ++ [e]) (S i) = Some b -> exists y, get (elems s1) a = Some y /\ e_next y = Some b) /\
      exists o n, s1 = set_ends o n (set_elems (elems s1) s)).
    { assert (IR : forall a, In a (maxh s ++ minh s ++ nans s) -> a <> e) by (intros a Ia ->; apply NR; eapply Permutation_in; [symmetry; exact P | auto]).
      destruct (Nat.eqb_spec e 0) as [Z | Z].
      - assert (RZ : ring = []) by (unfold e in Z; destruct ring; [auto | discriminate]). rewrite RZ. eexists. split; [reflexivity |]. cbn [maxh minh nans oldest newest elems set_ends set_elems app hd_error].
        split; auto. split; auto. split; auto. split; auto. split; auto. split; [congruence |]. split; [rewrite G1; now rewrite Nat.eqb_refl |]. split; [| split; [| split]].
        + intros a y Ia Ga. apply IR in Ia. rewrite G1. destruct (Nat.eqb_spec a e); [congruence | eauto].
        + intros a NE. rewrite G1. destruct (Nat.eqb_spec a e); [congruence | auto].
        + intros [| i] a b _ B; [discriminate | destruct i; discriminate].
        + eauto.
      - set (n := at_ ring (e - 1)). assert (EN : nth_error ring (e - 1) = Some n) by (apply at_nth; unfold e in *; lia). rewrite (i_new _ _ _ _ _ _ _ I). fold e. rewrite EN.
        assert (NE : n <> e) by (intros H; apply NR; rewrite <- H; now apply nth_error_In in EN).
        destruct (values_nth _ _ _ _ _ (r_val _ _ _ _ R) EN) as (xn & Gn & _).
        assert (Gn1 : get m1 n = Some xn) by (rewrite G1; destruct (Nat.eqb_spec n e); [congruence | auto]).
        destruct (change_ok (set_next (Some e)) m1 n xn Gn1) as (m2 & -> & L2 & G2).
        assert (GO : forall a, a <> e -> a <> n -> get m2 a = get (elems s) a).
        { intros a A B. rewrite G2, G1. destruct (Nat.eqb_spec a n); [congruence |]. destruct (Nat.eqb_spec a e); [congruence | auto]. }
        assert (GN : get m2 n = Some (set_next (Some e) xn)) by (rewrite G2, Nat.eqb_refl; auto).
        eexists. split; [reflexivity |]. cbn [maxh minh nans oldest newest elems set_ends set_elems].
        split; auto. split; auto. split; auto. split; [rewrite (i_old _ _ _ _ _ _ _ I); destruct ring; [cbn in Z; congruence | reflexivity] |]. split; auto. split; [congruence |].
        split; [rewrite G2, G1, Nat.eqb_refl; destruct (Nat.eqb_spec e n); [congruence | auto] |]. split; [| split; [| split]].
        + intros a y Ia Ga. apply IR in Ia. destruct (Nat.eq_dec a n) as [-> | B]; [| rewrite GO by auto; eauto]. rewrite GN. eexists. split; [reflexivity |]. rewrite Gn in Ga. injection Ga as <-. reflexivity.
        + intros a A. destruct (Nat.eq_dec a n) as [-> | B]; [now rewrite GN, Gn | now rewrite GO].
        + intros i a b A B. destruct (Nat.lt_ge_cases (S i) e) as [Q | Q].
          * rewrite nth_error_app1 in A, B by (unfold e in Q; lia). destruct (r_link _ _ _ _ R i a b A B) as (y & Gy & Ny). exists y. split; auto. rewrite GO; auto.
            -- intros ->. apply NR. now apply nth_error_In in A.
            -- intros ->. assert (i = e - 1); [| lia]. eapply NoDup_nth_error; [apply R | unfold e in *; lia | congruence].
          * assert (S i = e) by (apply nth_error_Some_lt in B; rewrite app_length in B; cbn in B; unfold e in *; lia). rewrite nth_error_app1 in A by (unfold e in *; lia). rewrite nth_error_app2 in B by (unfold e in *; lia).
            replace (S i - length ring) with 0 in B by (unfold e in *; lia). cbn in B. injection B as <-. replace i with (e - 1) in A by lia. rewrite A in EN. injection EN as ->. eexists. split; [exact GN | reflexivity].
        + eauto. }
    destruct EX as (s1 & -> & MA & MI & NA & O1 & N1 & LE1 & GE & PL & GD & LK & o & n & ES).
    assert (GG : forall a, a <> e -> good valid (elems s1) a = good valid (elems s) a).
    { intros a A. pose proof (GD a A) as X. unfold good. destruct (get (elems s1) a), (get (elems s) a); cbn in X; try discriminate; auto. injection X as ->. reflexivity. }
    assert (GV : forall a, a <> e -> vat valid (elems s1) a = vat valid (elems s) a).
    { intros a A. pose proof (GD a A) as X. unfold vat. destruct (get (elems s1) a), (get (elems s) a); cbn in X |- *; try discriminate; auto. injection X as ->. reflexivity. }
    assert (VE : vat valid (elems s1) e = Some (valid d)) by (unfold vat; now rewrite GE).
    assert (HE : heaps s1 = heaps s) by (unfold heaps; congruence).
    assert (IH : forall a, In a (heaps s) \/ In a (nans s) -> a <> e).
    { intros a Ia ->. apply NR. eapply Permutation_in; [symmetry; exact P |]. now apply in_heaps. }
    assert (R1 : ring_ok W (elems s1) (ring ++ [e]) (l ++ [d])).
    { destruct (lastw_not_full W l d L) as [LA LB]. split; auto.
      - rewrite LB. apply values_app.
        + eapply values_ext; [| rewrite <- LA; apply R]. intros a Ia. apply GD. intros ->. auto.
        + eapply values_cons; [exact GE | reflexivity | reflexivity].
      - apply NoDup_app_iff. split; [apply R |]. split; [repeat constructor; auto |]. intros a Ia [<- | []]. auto.
      - intros a Ia. rewrite app_length. cbn. fold e. apply in_app_or in Ia. destruct Ia as [Ia | [<- | []]]; [| lia]. apply (r_lt _ _ _ _ R) in Ia. fold e in Ia. lia. }
    assert (N2 : newest s1 = nth_error (ring ++ [e]) (length (ring ++ [e]) - 1)).
    { rewrite N1, app_length. cbn [length]. rewrite nth_error_app2 by lia. replace (length ring + 1 - 1 - length ring) with 0 by lia. reflexivity. }
    destruct (i_full _ _ _ _ _ _ _ I) as (C & X & SZ).
    assert (F1 : full index (LT less valid (elems s1)) s1).
    { apply full_ext with (lt0 := LT less valid (elems s)).
      - intros a b Ia Ib. rewrite HE in Ia, Ib. apply LT_ext; apply GG; apply IH; auto.
      - split; [rewrite ES; apply core_placed; auto |]. split; [now rewrite MA, MI |]. unfold count. rewrite HE, MA. exact SZ. }
    assert (FR : ~ In e (maxh s1 ++ minh s1 ++ nans s1)) by (rewrite MA, MI, NA; intros H; apply in_heaps in H; now apply IH in H).
    destruct (valid d) eqn:VD.
    - destruct (push_correct less index integral W IX (LT less valid (elems s1)) (LT_swo less valid OK (elems s1)) (e :: heaps s1) e s1 x F1) as (s2 & -> & F2 & P2 & R2 & K2).
      + apply LT_agrees. intros a [<- | Ia]; auto. rewrite HE in Ia. rewrite GV by (apply IH; auto). now apply (i_heap _ _ _ _ _ _ _ I).
      + intros a Ia. now right.
      + now left.
      + exact FR.
      + exact GE.
      + unfold count. rewrite HE. pose proof (Permutation_length P) as PL'. rewrite !app_length in PL'. unfold heaps. rewrite app_length. lia.
      + exists s2. split; auto. exists (ring ++ [e]). destruct R2 as (RN & RO & RW). eapply (finish less valid index W) with (s1 := s1); eauto.
        * rewrite P, app_assoc, app_assoc. fold (heaps s) (heaps s2). rewrite <- P2, RN, HE, NA, <- !app_assoc. apply Permutation_app_head, Permutation_app_comm.
        * intros a Ia. eapply Permutation_in in Ia; [| symmetry; exact P2]. apply in_app_or in Ia. destruct Ia as [Ia | [<- | []]]; auto. rewrite HE in Ia. rewrite GV by (apply IH; auto). now apply (i_heap _ _ _ _ _ _ _ I).
        * intros a Ia. rewrite RN, NA in Ia. rewrite GV by (apply IH; auto). now apply (i_nan _ _ _ _ _ _ _ I).
    - destruct F1 as (C1 & X1 & SZ1). destruct (push_nan _ e s1 x C1 GE FR) as (s2 & -> & C2 & MA2 & MI2 & NA2 & O2 & NW2 & K2).
      assert (H2 : heaps s2 = heaps s) by (unfold heaps; congruence).
      exists s2. split; auto. exists (ring ++ [e]). eapply (finish less valid index W) with (s1 := s1); eauto.
      + rewrite P, app_assoc, app_assoc. fold (heaps s) (heaps s2). rewrite H2, NA2, NA, <- !app_assoc. reflexivity.
      + intros a Ia. rewrite H2 in Ia. rewrite GV by (apply IH; auto). now apply (i_heap _ _ _ _ _ _ _ I).
      + intros a Ia. rewrite NA2, NA in Ia. apply in_app_or in Ia. destruct Ia as [Ia | [<- | []]]; auto. rewrite GV by (apply IH; auto). now apply (i_nan _ _ _ _ _ _ _ I).
      + split; auto. split; [now rewrite MA2, MI2 |]. unfold count. rewrite H2, <- HE, MA2. exact SZ1.
  Qed.

  (* ** The reported value *)
  Lemma heaps_good l (s : rq) ring e : inv less valid index W l s ring -> In e (heaps s) -> exists x, get (elems s) e = Some x /\ valid (e_dat x) = true.
  Proof. intros I J. apply (i_heap _ _ _ _ _ _ _ I) in J. unfold vat in J. destruct (get (elems s) e) as [x |]; [| discriminate]. exists x. split; auto. cbn in J. congruence. Qed.
  Lemma LT_dat m a b x y : get m a = Some x -> get m b = Some y -> valid (e_dat x) = true -> valid (e_dat y) = true -> LT less valid m a b = less (e_dat x) (e_dat y).
  Proof. intros A B C D. unfold LT, good. now rewrite A, B, C, D. Qed.
  Lemma inv_heaps l (s : rq) ring : inv less valid index W l s ring -> two_heaps less valid index W l s.
  Proof.
    intros I. pose proof (i_full _ _ _ _ _ _ _ I) as (C & X & SZ). set (m := elems s) in *.
    assert (GA : forall e, In e (maxh s) -> exists x, get m e = Some x /\ valid (e_dat x) = true) by (intros; eapply heaps_good; eauto; apply in_or_app; auto).
    assert (GB : forall e, In e (minh s) -> exists x, get m e = Some x /\ valid (e_dat x) = true) by (intros; eapply heaps_good; eauto; apply in_or_app; auto).
    assert (GN : forall e, In e (nans s) -> exists x, get m e = Some x /\ valid (e_dat x) = false).
    { intros e J. apply (i_nan _ _ _ _ _ _ _ I) in J. unfold vat in J. fold m in J. destruct (get m e) as [x |]; [| discriminate]. exists x. split; auto. cbn in J. congruence. }
    destruct (values_ex m (maxh s)) as (va & VA); [intros e J; destruct (GA e J) as (x & ? & _); eauto |].
    destruct (values_ex m (minh s)) as (vb & VB); [intros e J; destruct (GB e J) as (x & ? & _); eauto |].
    destruct (values_ex m (nans s)) as (vn & VN); [intros e J; destruct (GN e J) as (x & ? & _); eauto |].
    assert (IA : forall d, In d va -> exists e x, In e (maxh s) /\ get m e = Some x /\ e_dat x = d /\ valid (e_dat x) = true).
    { intros d J. destruct (values_in _ _ _ _ VA J) as (e & x & Je & G & E). destruct (GA e Je) as (y & Gy & V). rewrite G in Gy. injection Gy as <-. eauto 8. }
    assert (IB : forall d, In d vb -> exists e x, In e (minh s) /\ get m e = Some x /\ e_dat x = d /\ valid (e_dat x) = true).
    { intros d J. destruct (values_in _ _ _ _ VB J) as (e & x & Je & G & E). destruct (GB e Je) as (y & Gy & V). rewrite G in Gy. injection Gy as <-. eauto 8. }
    assert (PV : Permutation (va ++ vb ++ vn) (lastw W l)).
    { eapply values_perm; [symmetry; apply (i_perm _ _ _ _ _ _ _ I) | apply values_app; [exact VA | apply values_app; eauto] | apply (i_ring _ _ _ _ _ _ _ I)]. }
    assert (LA : length va = length (maxh s)) by (symmetry; eapply values_length; eauto).
    assert (LB : length vb = length (minh s)) by (symmetry; eapply values_length; eauto).
    exists va, vb. split; auto. split; auto. split; [| split; [| split; [| split]]].
    - rewrite <- (Accum2Proofs.filter_perm valid _ _ PV), !filter_app.
      assert (FT : forall v, (forall d, In d v -> valid d = true) -> filter valid v = v).
      { induction v as [| d v IH]; intros H; auto. cbn. rewrite (H d) by now left. f_equal. apply IH. intros. apply H. now right. }
      assert (FF : forall v, (forall d, In d v -> valid d = false) -> filter valid v = []).
      { induction v as [| d v IH]; intros H; auto. cbn. rewrite (H d) by now left. apply IH. intros. apply H. now right. }
      rewrite (FT va), (FT vb), (FF vn), app_nil_r; auto.
      + intros d J. destruct (values_in _ _ _ _ VN J) as (e & x & Je & G & E). destruct (GN e Je) as (y & Gy & V). rewrite G in Gy. injection Gy as <-. congruence.
      + intros d J. destruct (IB d J) as (e & x & _ & _ & E & V). congruence.
      + intros d J. destruct (IA d J) as (e & x & _ & _ & E & V). congruence.
    - intros a b Ja Jb. destruct (IA a Ja) as (e1 & x1 & J1 & G1 & <- & V1). destruct (IB b Jb) as (e2 & x2 & J2 & G2 & <- & V2). rewrite <- (LT_dat m e2 e1 x2 x1) by auto. now apply X.
    - intros a d Ha Jd. destruct va as [| a' va']; [discriminate |]. cbn in Ha. injection Ha as ->. destruct (maxh s) as [| e h] eqn:EM; [discriminate |].
      destruct (values_nth _ _ _ 0 e VA eq_refl) as (x & G & E). cbn in E. injection E as ->. destruct (IA d Jd) as (e2 & x2 & J2 & G2 & <- & V2). destruct (GA e (or_introl eq_refl)) as (y & Gy & V). rewrite G in Gy. injection Gy as <-.
      rewrite <- (LT_dat m e e2 x x2) by auto. apply (top_max _ (LT_swo less valid OK m) e h); auto. pose proof (c_hmax _ _ C) as H. now rewrite EM in H.
    - intros b d Hb Jd. destruct vb as [| b' vb']; [discriminate |]. cbn in Hb. injection Hb as ->. destruct (minh s) as [| e h] eqn:EM; [discriminate |].
      destruct (values_nth _ _ _ 0 e VB eq_refl) as (x & G & E). cbn in E. injection E as ->. destruct (IB d Jd) as (e2 & x2 & J2 & G2 & <- & V2). destruct (GB e (or_introl eq_refl)) as (y & Gy & V). rewrite G in Gy. injection Gy as <-.
      rewrite <- (LT_dat m e2 e x2 x) by auto. apply (top_min _ (LT_swo less valid OK m) e h); auto. pose proof (c_hmin _ _ C) as H. now rewrite EM in H.
    - unfold count, heaps in SZ. rewrite app_length in *. rewrite LA, LB. exact SZ.
  Qed.
  Lemma two_heaps_quantile l (s : rq) : two_heaps less valid index W l s -> exists u, GetQ s = Some u /\ quantile_of less valid uinv conv split_ index integral (lastw W l) u.
  Proof.
    intros (va & vb & VA & VB & P & X & HA & HB & SZ). unfold GetQuantile, quantile_of. cbv zeta.
    assert (N : length (filter valid (lastw W l)) = total_non_nan_elements s).
    { rewrite <- (Permutation_length P), app_length. unfold total_non_nan_elements. rewrite (values_length _ _ _ VA), (values_length _ _ _ VB). lia. }
    rewrite N. set (n := total_non_nan_elements s) in *. assert (LN : length (va ++ vb) = n) by now rewrite (Permutation_length P). rewrite LN in SZ.
    destruct (Nat.ltb_spec n 1) as [Z | Z]; destruct (Nat.eqb_spec n 0) as [Z' | Z']; try lia; [eauto |]. clear Z'. destruct SZ as [SZ | SZ]; [lia |].
    assert (OKS : forall d, In d (va ++ vb) -> valid d = true).
    { intros d J. eapply Permutation_in in J; [| exact P]. apply filter_In in J. tauto. }
    destruct va as [| a va']; [cbn in SZ; lia |]. destruct (maxh s) as [| e h] eqn:EM; [now apply values_length in VA |]. cbn [hd_error].
    destruct (values_nth _ _ _ 0 e VA eq_refl) as (x & G & E). cbn in E. injection E as ->. rewrite G.
    pose proof (Grpx2Proofs.isort_perm less va') as PA.
    assert (LA : length (isort less va') = index n) by (rewrite <- (Permutation_length PA); cbn in SZ; lia).
    assert (SA : StronglySorted (fun p q => less q p = false) (isort less va' ++ [e_dat x])).
    { apply Grpx2Proofs.sorted_app; [apply (Grpx2Proofs.isort_sorted less valid OK); intros d J; apply OKS; cbn; rewrite in_app_iff; auto | repeat constructor |].
      intros p q Jp [<- | []]. apply HA; auto. right. eapply Permutation_in; [symmetry; exact PA | exact Jp]. }
    assert (QA : Permutation (e_dat x :: va') (isort less va' ++ [e_dat x])) by (rewrite <- PA; apply Permutation_cons_append).
    destruct IX as (X1 & X2 & X3). destruct vb as [| b vb'].
    - rewrite app_nil_r in *. cbn in LN. assert (II : integral n = true).
      { destruct (integral n) eqn:II; auto. specialize (X3 n ltac:(lia) II). cbn in SZ. lia. }
      rewrite II. eexists. split; [reflexivity |]. exists (isort less va' ++ [e_dat x]). split; [split; [rewrite <- P; exact QA | exact SA] |].
      exists (e_dat x). split; auto. rewrite nth_error_app2 by lia. now rewrite LA, Nat.sub_diag.
    - destruct (minh s) as [| e2 h2] eqn:EN; [now apply values_length in VB |]. cbn [hd_error].
      destruct (values_nth _ _ _ 0 e2 VB eq_refl) as (y & Gy & E). cbn in E. injection E as ->. rewrite Gy.
      pose proof (Grpx2Proofs.isort_perm less vb') as PB.
      assert (SO : sorted_of less (filter valid (lastw W l)) ((isort less va' ++ [e_dat x]) ++ e_dat y :: isort less vb')).
      { split; [rewrite <- P; apply Permutation_app; [exact QA | now constructor] |].
        apply Grpx2Proofs.sorted_app; [exact SA | |].
        - constructor; [apply (Grpx2Proofs.isort_sorted less valid OK); intros d J; apply OKS; rewrite in_app_iff; right; now right |].
          apply Forall_forall. intros d J. apply HB; auto. right. eapply Permutation_in; [symmetry; exact PB | exact J].
        - intros p q Jp Jq. apply X.
          + eapply Permutation_in; [symmetry; exact QA | exact Jp].
          + destruct Jq as [Jq | Jq]; [now left | right]. eapply Permutation_in; [symmetry; exact PB | exact Jq]. }
      assert (A1 : nth_error ((isort less va' ++ [e_dat x]) ++ e_dat y :: isort less vb') (index n) = Some (e_dat x)).
      { rewrite nth_error_app1 by (rewrite app_length; cbn; lia). rewrite nth_error_app2 by lia. now rewrite LA, Nat.sub_diag. }
      destruct (integral n).
      + eexists. split; [reflexivity |]. eexists. split; [exact SO |]. eauto.
      + eexists. split; [reflexivity |]. eexists. split; [exact SO |]. exists (e_dat x), (e_dat y). split; auto. split; auto.
        rewrite nth_error_app2 by (rewrite app_length; cbn; lia). rewrite app_length. cbn [length]. replace (S (index n) - (length (isort less va') + 1)) with 0 by lia. reflexivity.
  Qed.

  Lemma update_ok l (s : rq) d : INV l s -> exists u s', Upd d s = Some (u, s') /\ INV (l ++ [d]) s' /\ quantile_of less valid uinv conv split_ index integral (lastw W (l ++ [d])) u.
  Proof.
    intros (ring & I). unfold Update. destruct (inv_total _ _ _ I) as [-> LR].
    assert (Q : exists s2, (if length ring <? W then NanUpdateNotFull less valid uinv conv split_ index integral MAX MIN d s else NanUpdateFull less valid uinv conv split_ index integral MAX MIN d s) = (do u <- GetQ s2; Some (u, s2)) /\ INV (l ++ [d]) s2).
    { destruct (Nat.ltb_spec (length ring) W); [apply (update_not_full l s ring d I) | apply (update_full l s ring d I)]; lia. }
    destruct Q as (s2 & -> & ring2 & I2). destruct (two_heaps_quantile _ _ (inv_heaps _ _ _ I2)) as (u & -> & QU). exists u, s2. split; eauto.
  Qed.
  Lemma updates_ok l : forall l0 (s : rq), INV l0 s -> exists us s', updates less valid uinv conv split_ index integral W MAX MIN l s = Some (us, s') /\ INV (l0 ++ l) s' /\
    length us = length l /\ forall k u, nth_error us k = Some u -> quantile_of less valid uinv conv split_ index integral (lastw W (l0 ++ firstn (k + 1) l)) u.
  Proof.
    induction l as [| d l IH]; intros l0 s I; cbn [updates].
    - exists [], s. rewrite app_nil_r. split; auto. split; auto. split; auto. intros [| k] u H; discriminate.
    - destruct (update_ok l0 s d I) as (u & s1 & -> & I1 & Q). destruct (IH (l0 ++ [d]) s1 I1) as (us & s2 & -> & I2 & L & QS). exists (u :: us), s2.
      rewrite <- app_assoc in I2. split; auto. split; auto. split; [cbn; congruence |]. intros [| k] v H; cbn in H.
      + injection H as <-. exact Q.
      + specialize (QS k v H). rewrite <- app_assoc in QS. exact QS.
  Qed.
  Lemma updates_rows l : exists us s', updates less valid uinv conv split_ index integral W MAX MIN l (rq_init W) = Some (us, s') /\ two_heaps less valid index W l s' /\
    RollSpec.rolled (quantile_row less valid uinv conv split_ index integral (Z.of_nat W) l) l us.
  Proof.
    destruct (updates_ok l [] (rq_init W) inv_init) as (us & s & E & (ring & I) & L & Q). exists us, s. split; auto. split; [eapply inv_heaps; eauto |]. split; auto.
    intros k u H. unfold quantile_row, window. rewrite Nat2Z.id. specialize (Q k u H). cbn [app] in Q. unfold lastw in Q. apply nth_error_Some_lt in H. rewrite firstn_length_le in Q by lia. exact Q.
  Qed.
End RQ.

(** ** The index *)
Local Open Scope Z_scope.
Lemma index_shift k n : 0 <= k -> (0 < n)%nat -> IntegralIndex k n = Z.to_nat (((Z.of_nat n - 1) * k + (MULT / 1000 - 1)) / MULT).
Proof.
  intros K N. unfold IntegralIndex, FractionalIndex. f_equal. set (x := (Z.of_nat n - 1) * k). assert (X : 0 <= x) by (unfold x; nia). clearbody x.
  unfold MULT. change (1000000000 / 1000) with 1000000. pose proof (Z.div_mod x 1000000000 ltac:(lia)). pose proof (Z.mod_pos_bound x 1000000000 ltac:(lia)).
  destruct (Z.ltb_spec (1000000000 - 1000000) (x mod 1000000000)).
  - apply Z.div_unique with (r := x mod 1000000000 + 1000000 - 1 - 1000000000); lia.
  - apply Z.div_unique with (r := x mod 1000000000 + 1000000 - 1); lia.
Qed.
Lemma index_ok_code k : 0 <= k <= MULT -> index_ok (IntegralIndex k) (IndexIsIntegral k).
Proof.
  intros K. assert (POS : forall n, (0 < n)%nat -> 0 <= (Z.of_nat n - 1) * k) by (intros; nia).
  split; [| split]; intros n N.
  - rewrite index_shift by lia. specialize (POS n N). assert (UB : (Z.of_nat n - 1) * k <= (Z.of_nat n - 1) * MULT) by nia. set (x := (Z.of_nat n - 1) * k) in *. clearbody x.
    unfold MULT in *. change (1000000000 / 1000) with 1000000. assert ((x + (1000000 - 1)) / 1000000000 < Z.of_nat n) by (apply Z.div_lt_upper_bound; lia). pose proof (Z.div_pos (x + (1000000 - 1)) 1000000000 ltac:(lia) ltac:(lia)). lia.
  - rewrite !index_shift by lia. pose proof (POS n N) as X. assert (E : (Z.of_nat (S n) - 1) * k = (Z.of_nat n - 1) * k + k) by nia. rewrite E. set (x := (Z.of_nat n - 1) * k) in *. clearbody x.
    unfold MULT in *. change (1000000000 / 1000) with 1000000. pose proof (Z.div_pos (x + (1000000 - 1)) 1000000000 ltac:(lia) ltac:(lia)).
    pose proof (Z.div_le_mono (x + (1000000 - 1)) (x + k + (1000000 - 1)) 1000000000 ltac:(lia) ltac:(lia)).
    pose proof (Z.div_le_mono (x + k + (1000000 - 1)) (x + (1000000 - 1) + 1 * 1000000000) 1000000000 ltac:(lia) ltac:(lia)) as UB. rewrite Z.div_add in UB by lia. lia.
  - unfold IndexIsIntegral, IntegralIndex, FractionalIndex. intros I. apply orb_false_iff in I. destruct I as [I1 I2]. rewrite I2. specialize (POS n N).
    assert (UB : (Z.of_nat n - 1) * k <= (Z.of_nat n - 1) * MULT) by nia. set (x := (Z.of_nat n - 1) * k) in *. clearbody x. unfold MULT in *. change (1000000000 / 1000) with 1000000 in *.
    apply Z.ltb_ge in I1. pose proof (Z.div_mod x 1000000000 ltac:(lia)). pose proof (Z.mod_pos_bound x 1000000000 ltac:(lia)). pose proof (Z.div_pos x 1000000000 ltac:(lia) ltac:(lia)). lia.
Qed.
Lemma param_ok k w : 0 <= k <= MULT -> 0 < w -> Z.rem (k + w * (MULT + 1)) (MULT + 1) = k /\ Z.quot (k + w * (MULT + 1)) (MULT + 1) = w.
Proof.
  intros K Wp. unfold MULT in *. rewrite Z.rem_mod_nonneg, Z.quot_div_nonneg by lia. split.
  - symmetry. apply Z.mod_unique with (q := w); lia.
  - symmetry. apply Z.div_unique with (r := k); lia.
Qed.
Section Top.
  Context {T U : Type} (less : T -> T -> bool) (valid : T -> bool) (uinv : U) (conv : T -> U) (split_ : T -> T -> U).
  Hypothesis OK : order_ok valid less.
  Lemma window_one (l : list T) k x : nth_error l k = Some x -> window 1 k l = [x].
  Proof.
    intros H. unfold window. change (Z.to_nat 1) with 1%nat. replace (k + 1 - 1)%nat with k by lia. rewrite Nat.add_1_r. pose proof (nth_error_Some_lt _ _ _ H). rewrite (firstn_S_snoc l k x H).
    rewrite skipn_app, firstn_length_le by lia. rewrite skipn_all2 by (rewrite firstn_length; lia). now rewrite Nat.sub_diag.
  Qed.
  Lemma RollingQuantile_ok k w l : 0 <= k <= MULT -> 0 < w ->
    exists us, RollingQuantile less valid uinv conv split_ (k + w * (MULT + 1)) l = QOk us /\ RollSpec.rolled (quantile_row less valid uinv conv split_ (IntegralIndex k) (IndexIsIntegral k) w l) l us.
  Proof.
    intros K Wp. unfold RollingQuantile. destruct (param_ok k w K Wp) as [-> ->]. destruct (Z.leb_spec w 0); [lia |]. destruct (Z.eqb_spec w 1) as [-> | NE].
    - eexists. split; [reflexivity |]. split; [now rewrite map_length |]. intros i u H1. rewrite nth_error_map in H1. destruct (nth_error l i) as [x |] eqn:E; [| discriminate]. cbn in H1. injection H1 as <-.
      unfold quantile_row, quantile_of. rewrite (window_one l i x E). cbn [filter]. destruct (valid x); cbn; auto. exists [x]. split; [split; [auto | repeat constructor] |]. exists x. auto.
    - destruct (updates_rows less valid uinv conv split_ (IntegralIndex k) (IndexIsIntegral k) (Z.to_nat w) (index_ok_code k K) OK ltac:(lia) l) as (us & s & -> & _ & R). exists us. split; auto. rewrite Z2Nat.id in R by lia. exact R.
  Qed.
End Top.
