(** The two heaps of a rolling quantile: one update. *)
From Verif Require Import Base AccumSpec GrpxSpec HeapModel HeapSpec HeapProofs Heap2Proofs Heap3Proofs Heap4Proofs.
From Verif Require Grpx2Proofs.

Lemma at_in h j : j < length h -> In (at_ h j) h.
Proof. intros H. eapply nth_error_In. now apply at_nth. Qed.
Lemma at_neq h i j e : NoDup h -> nth_error h i = Some e -> j < length h -> j <> i -> at_ h j <> e.
Proof.
  intros N E L J X. apply at_nth in L. rewrite X in L. apply J. eapply NoDup_nth_error; eauto; [now apply nth_error_Some_lt in L | congruence].
Qed.
(* the order changes for e only *)
Lemma change_heap (lt0 lt1 : nat -> nat -> bool) h i e : (forall a b c, lt0 a b = false -> lt0 b c = false -> lt0 a c = false) ->
  (forall a b, In a h -> In b h -> a <> e -> b <> e -> lt1 a b = lt0 a b) -> NoDup h -> heap_ok lt0 h -> nth_error h i = Some e -> down_pre lt1 h i.
Proof.
  intros ntr A N H E. split.
  - intros j Hj J P. unfold ord. pose proof (parent_lt j ltac:(lia)). rewrite A; try (apply at_in; lia); [now apply H | |]; eapply at_neq; eauto; lia.
  - intros c Hi Hc C0 P. pose proof (parent_lt i Hi). pose proof (parent_lt c C0). pose proof (nth_error_Some_lt _ _ _ E). rewrite A; try (apply at_in; lia).
    + apply ntr with (b := at_ h i); [apply H; lia |]. pose proof (H c ltac:(lia)) as X. unfold ord in X. now rewrite P in X.
    + eapply at_neq; eauto; lia.
    + eapply at_neq; eauto; lia.
Qed.
Lemma same_heap (lt0 lt1 : nat -> nat -> bool) h : (forall a b, In a h -> In b h -> lt1 a b = lt0 a b) -> heap_ok lt0 h -> heap_ok lt1 h.
Proof. intros A H j Hj. unfold ord. pose proof (parent_lt j ltac:(lia)). rewrite A; try (apply at_in; lia). now apply H. Qed.

Lemma filter_id e (h : list nat) : ~ In e h -> filter (fun x => negb (x =? e)) h = h.
Proof. induction h as [| a h IH]; auto. intros N. cbn in *. destruct (Nat.eqb_spec a e) as [-> |]; [tauto |]. cbn. f_equal. apply IH. tauto. Qed.
Lemma filter_out e (h : list nat) : NoDup h -> In e h -> Permutation h (e :: filter (fun x => negb (x =? e)) h).
Proof.
  induction h as [| a h IH]; [easy |]. intros N I. apply NoDup_cons_iff in N. destruct N as [N1 N2]. cbn. destruct (Nat.eqb_spec a e) as [-> |].
  - cbn. constructor. rewrite filter_id; auto.
  - cbn. destruct I as [I | I]; [congruence |]. rewrite perm_swap. constructor. now apply IH.
Qed.
Lemma lastw_not_full {T} W (l : list T) d : length l < W -> lastw W l = l /\ lastw W (l ++ [d]) = l ++ [d].
Proof. intros H. unfold lastw. rewrite app_length. cbn. replace (length l - W) with 0 by lia. replace (length l + 1 - W) with 0 by lia. auto. Qed.
Lemma lastw_full {T} W (l : list T) d a r : 0 < W -> W <= length l -> lastw W l = a :: r -> lastw W (l ++ [d]) = r ++ [d].
Proof.
  intros H0 H E. unfold lastw in *. rewrite app_length. cbn. replace (length l + 1 - W) with (S (length l - W)) by lia.
  rewrite skipn_app. replace (S (length l - W) - length l) with 0 by lia. cbn [skipn]. f_equal.
  generalize dependent (length l - W). intros n E. clear - E. revert l E. induction n as [| n IH]; intros l E; [cbn in E; subst; reflexivity |]. destruct l as [| b l]; [discriminate |]. cbn [skipn] in *. specialize (IH l E). destruct l as [| c l]; [destruct n; discriminate | exact IH].
Qed.
Lemma lastw_length {T} W (l : list T) : length (lastw W l) = Nat.min W (length l).
Proof. unfold lastw. rewrite skipn_length. lia. Qed.

Section RQ.
  Context {T U : Type} (less : T -> T -> bool) (valid : T -> bool) (uinv : U) (conv : T -> U) (split_ : T -> T -> U).
  Context (index : nat -> nat) (integral : nat -> bool) (W : nat).
  Notation MAX := (index W + 1).
  Notation MIN := (W - (index W + 1)).
  Implicit Types m : mem T.
  Implicit Types s : @rq T.
  Hypothesis IX : index_ok index integral.
  Hypothesis OK : order_ok valid less.
  Hypothesis W2 : 2 <= W.

  Definition good m e : option T := match get m e with Some x => if valid (e_dat x) then Some (e_dat x) else None | None => None end.
  Definition LT m (a b : nat) : bool :=
    match good m a, good m b with Some x, Some y => less x y | None, Some _ => true | _, None => false end.
  Lemma good_valid m e x : good m e = Some x -> valid x = true.
  Proof. unfold good. destruct (get m e) as [y |]; [| discriminate]. destruct (valid (e_dat y)) eqn:E; congruence. Qed.
  Lemma LT_swo m : swo (LT m).
  Proof.
    destruct OK as (irr & tr & ntr). split; [| split]; unfold LT.
    - intros a. destruct (good m a); auto.
    - intros a b c. destruct (good m a), (good m b), (good m c); try congruence. apply tr.
    - intros a b c. destruct (good m a) as [x |] eqn:A, (good m b) as [y |] eqn:B, (good m c) as [z |] eqn:C; try congruence. apply ntr; eapply good_valid; eauto.
  Qed.
  Lemma LT_ext m m' a b : good m' a = good m a -> good m' b = good m b -> LT m' a b = LT m a b.
  Proof. unfold LT. intros -> ->. reflexivity. Qed.
  Lemma good_core m m' e : option_map core_ (get m' e) = option_map core_ (get m e) -> good m' e = good m e.
  Proof. unfold good, core_. destruct (get m' e), (get m e); cbn; intros H; try discriminate; auto. injection H as -> _. reflexivity. Qed.
  Lemma good_kept F m m' e : kept F m m' -> good m' e = good m e.
  Proof. intros (_ & K & _). apply good_core, K. Qed.
  Definition vat m e : option bool := option_map (fun x => valid (e_dat x)) (get m e).
  Lemma vat_core m m' e : option_map core_ (get m' e) = option_map core_ (get m e) -> vat m' e = vat m e.
  Proof. unfold vat, core_. destruct (get m' e), (get m e); cbn; intros H; try discriminate; auto. injection H as -> _. reflexivity. Qed.
  Lemma LT_agrees m E : (forall e, In e E -> vat m e = Some true) -> agreesE less (LT m) E m.
  Proof.
    intros V a b Ia Ib. unfold compare, LT, good. specialize (V a Ia) as A. specialize (V b Ib) as B. unfold vat in *.
    destruct (get m a); [| discriminate]. destruct (get m b); [| discriminate]. cbn in *. injection A as ->. injection B as ->. reflexivity.
  Qed.
  Lemma core_ext lt0 lt1 s : (forall a b, In a (heaps s) -> In b (heaps s) -> lt1 a b = lt0 a b) -> core lt0 s -> core lt1 s.
  Proof.
    intros A C. split; try apply C.
    - eapply same_heap; [| apply (c_hmax lt0 s C)]. intros. apply A; apply in_or_app; auto.
    - eapply same_heap; [| apply (c_hmin lt0 s C)]. intros. unfold gt. apply A; apply in_or_app; auto.
  Qed.
  Lemma cross_ext lt0 lt1 s : (forall a b, In a (heaps s) -> In b (heaps s) -> lt1 a b = lt0 a b) -> cross lt0 (maxh s) (minh s) -> cross lt1 (maxh s) (minh s).
  Proof. intros A C a b Ia Ib. rewrite A; [now apply C | |]; apply in_or_app; auto. Qed.
  Lemma full_ext lt0 lt1 s : (forall a b, In a (heaps s) -> In b (heaps s) -> lt1 a b = lt0 a b) -> full index lt0 s -> full index lt1 s.
  Proof. intros A (C & X & S). split; [eapply core_ext; eauto |]. split; auto. eapply cross_ext; eauto. Qed.

  (* the elements in the order in which they came *)
  Record ring_ok m (ring : list nat) (l : list T) : Prop := {
    r_val : values m ring (lastw W l);
    r_nd : NoDup ring;
    r_lt : forall e, In e ring -> e < length ring;
    r_link : forall i a b, nth_error ring i = Some a -> nth_error ring (S i) = Some b -> exists x, get m a = Some x /\ e_next x = Some b }.
  Lemma values_core m m' h v : (forall e, option_map core_ (get m' e) = option_map core_ (get m e)) -> values m h v -> values m' h v.
  Proof.
    intros K V. unfold values in *. rewrite <- V. apply map_ext. intros e. specialize (K e). unfold core_ in K. destruct (get m' e), (get m e); cbn in *; congruence.
  Qed.
  Lemma ring_kept F m m' ring l : kept F m m' -> ring_ok m ring l -> ring_ok m' ring l.
  Proof.
    intros K R. split; try apply R.
    - destruct K as (_ & K & _). eapply values_core; [exact K | apply R].
    - intros i a b A B. destruct (r_link _ _ _ R i a b A B) as (x & G & N). destruct (kept_get _ _ _ _ _ K G) as (y & Gy & E). exists y. split; auto. unfold core_ in E. congruence.
  Qed.
  Record inv (l : list T) s (ring : list nat) : Prop := {
    i_len : length (elems s) = W;
    i_ring : ring_ok (elems s) ring l;
    i_old : oldest s = hd_error ring;
    i_new : newest s = nth_error ring (length ring - 1);
    i_perm : Permutation ring (maxh s ++ minh s ++ nans s);
    i_heap : forall e, In e (heaps s) -> vat (elems s) e = Some true;
    i_nan : forall e, In e (nans s) -> vat (elems s) e = Some false;
    i_full : full index (LT (elems s)) s }.

  (* the heap operations have run on s1 *)
  Lemma finish l s1 s2 F ring : length (elems s1) = W -> ring_ok (elems s1) ring l -> oldest s1 = hd_error ring -> newest s1 = nth_error ring (length ring - 1) ->
    kept F (elems s1) (elems s2) -> oldest s2 = oldest s1 -> newest s2 = newest s1 -> Permutation ring (maxh s2 ++ minh s2 ++ nans s2) ->
    (forall e, In e (heaps s2) -> vat (elems s1) e = Some true) -> (forall e, In e (nans s2) -> vat (elems s1) e = Some false) ->
    full index (LT (elems s1)) s2 -> inv l s2 ring.
  Proof.
    intros L R O N K O2 N2 P H1 H2 FU. split.
    - destruct K as (-> & _). exact L.
    - eapply ring_kept; eauto.
    - congruence.
    - congruence.
    - exact P.
    - intros e I. erewrite vat_core; [now apply H1 |]. apply K.
    - intros e I. erewrite vat_core; [now apply H2 |]. apply K.
    - eapply full_ext; [| exact FU]. intros a b _ _. apply LT_ext; eapply good_kept; eauto.
  Qed.

  (* data and links were replaced: places are the same *)
  Definition place (x : elem T) := (e_pos x, e_loc x).
  Definition placed (F : list nat) m m' : Prop := forall e x, In e F -> get m e = Some x -> exists y, get m' e = Some y /\ place y = place x.
  Lemma core_placed lt s m' o n : core lt s -> placed (maxh s ++ minh s ++ nans s) (elems s) m' -> core lt (set_ends o n (set_elems m' s)).
  Proof.
    intros C P. assert (WF : forall h, incl h (maxh s ++ minh s ++ nans s) -> wf h (elems s) -> wf h m').
    { intros h I Wf i e E. destruct (Wf i e E) as (x & G & Q). destruct (P e x (I e (nth_error_In _ _ E)) G) as (y & Gy & PL). exists y. split; auto. unfold place in PL. congruence. }
    assert (LO : forall e l, In e (maxh s ++ minh s ++ nans s) -> loc_of (elems s) e = Some l -> loc_of m' e = Some l).
    { intros e l I. unfold loc_of. destruct (get (elems s) e) as [x |] eqn:G; [| discriminate]. destruct (P e x I G) as (y & -> & PL). unfold place in PL. cbn. intros H. injection H as <-. congruence. }
    split; cbn [elems maxh minh nans set_ends set_elems]; try apply C.
    - apply WF; [| apply C]. intros a Ia. rewrite !in_app_iff. auto.
    - apply WF; [| apply C]. intros a Ia. rewrite !in_app_iff. auto.
    - intros. apply LO; [rewrite !in_app_iff; auto |]. now apply (c_lmax lt s C).
    - intros. apply LO; [rewrite !in_app_iff; auto |]. now apply (c_lmin lt s C).
    - intros. apply LO; [rewrite !in_app_iff; auto |]. now apply (c_lnan lt s C).
  Qed.
  Lemma push_nan lt e s x : core lt s -> get (elems s) e = Some x -> ~ In e (maxh s ++ minh s ++ nans s) ->
    exists s', PushToNanList e s = Some s' /\ core lt s' /\ maxh s' = maxh s /\ minh s' = minh s /\ nans s' = nans s ++ [e] /\ oldest s' = oldest s /\ newest s' = newest s /\ kept [e] (elems s) (elems s').
  Proof.
    intros C G N. unfold PushToNanList. destruct (relocate_ok InNanList e (set_nans (nans s ++ [e]) s) x G) as (m' & -> & F & K). cbn [elems set_nans] in *.
    eexists. split; [reflexivity |]. cbn [elems maxh minh nans oldest newest set_elems set_nans]. split; [| repeat split; auto; apply K].
    assert (NI : forall a h, In a h -> incl h (maxh s ++ minh s ++ nans s) -> ~ In a [e]) by (intros a h Ia I [<- | []]; auto).
    assert (I1 : incl (maxh s) (maxh s ++ minh s ++ nans s)) by (intros a; rewrite !in_app_iff; auto).
    assert (I2 : incl (minh s) (maxh s ++ minh s ++ nans s)) by (intros a; rewrite !in_app_iff; auto).
    assert (I3 : incl (nans s) (maxh s ++ minh s ++ nans s)) by (intros a; rewrite !in_app_iff; auto).
    split; cbn [elems maxh minh nans set_elems set_nans]; try apply C.
    - eapply relocate_wf; eauto. apply C.
    - eapply relocate_wf; eauto. apply C.
    - rewrite !app_assoc. rewrite <- (app_assoc (maxh s)). apply Permutation_NoDup with (l := e :: maxh s ++ minh s ++ nans s).
      + rewrite <- !app_assoc. rewrite Permutation_cons_append, <- !app_assoc. reflexivity.
      + constructor; auto. apply C.
    - intros a Ia. rewrite (loc_kept _ _ _ a K); [now apply (c_lmax lt s C) | eauto].
    - intros a Ia. rewrite (loc_kept _ _ _ a K); [now apply (c_lmin lt s C) | eauto].
    - intros a Ia. apply in_app_or in Ia. destruct Ia as [Ia | [<- | []]].
      + rewrite (loc_kept _ _ _ a K); [now apply (c_lnan lt s C) | eauto].
      + unfold loc_of. rewrite F, Nat.eqb_refl. reflexivity.
  Qed.
  Lemma erase_nan lt e s x : core lt s -> get (elems s) e = Some x -> In e (nans s) ->
    exists s', EraseFromNanList e s = Some s' /\ core lt s' /\ maxh s' = maxh s /\ minh s' = minh s /\ Permutation (nans s) (e :: nans s') /\ oldest s' = oldest s /\ newest s' = newest s /\ kept [e] (elems s) (elems s').
  Proof.
    intros C G I. unfold EraseFromNanList. assert (existsb (Nat.eqb e) (nans s) = true) as -> by (apply existsb_exists; exists e; split; auto; apply Nat.eqb_refl).
    destruct (relocate_ok NotInStructure e (set_nans (filter (fun x => negb (x =? e)) (nans s)) s) x G) as (m' & -> & F & K). cbn [elems set_nans] in *.
    pose proof (c_dis lt s C) as D. assert (DN : NoDup (nans s)) by (apply NoDup_app_iff in D; destruct D as (_ & D & _); now apply NoDup_app_iff in D).
    pose proof (filter_out e (nans s) DN I) as P. set (ns := filter (fun x => negb (x =? e)) (nans s)) in *. clearbody ns.
    assert (D2 : NoDup (e :: maxh s ++ minh s ++ ns)).
    { eapply Permutation_NoDup; [| exact D]. rewrite !app_assoc, P. symmetry. apply Permutation_middle. }
    apply NoDup_cons_iff in D2. destruct D2 as [D2 D3]. rewrite !in_app_iff in D2.
    eexists. split; [reflexivity |]. cbn [elems maxh minh nans oldest newest set_elems set_nans]. split; [| repeat split; auto; apply K].
    split; cbn [elems maxh minh nans set_elems set_nans]; try apply C; auto.
    - eapply relocate_wf; eauto. apply C.
    - eapply relocate_wf; eauto. apply C.
    - intros a Ia. rewrite (loc_kept _ _ _ a K); [now apply (c_lmax lt s C) |]. intros [<- | []]. tauto.
    - intros a Ia. rewrite (loc_kept _ _ _ a K); [now apply (c_lmin lt s C) |]. intros [<- | []]. tauto.
    - intros a Ia. rewrite (loc_kept _ _ _ a K); [apply (c_lnan lt s C); eapply Permutation_in; [symmetry; exact P | now right] |]. intros [<- | []]. tauto.
  Qed.

  (* the part of NanUpdateFull between the change of the links and GetQuantile *)
  Definition full_part e (old_is_nan : bool) d s1 : option rq :=
    match old_is_nan, negb (valid d) with
    | false, false => do t2 <- ApplyChangeInCorrespondingHeap less e s1; PossiblySwapHeapHeads less t2
    | true, false => do t2 <- EraseFromNanList e s1; PushToCorrectHeap less index MAX MIN e t2
    | false, true => do t2 <- EraseFromCorrespondingHeap less e s1; do t3 <- PushToNanList e t2; RebalanceHeaps less index MAX MIN t3
    | true, true => Some s1
    end.
  Lemma in_heaps s e : In e (maxh s ++ minh s ++ nans s) <-> In e (heaps s) \/ In e (nans s).
  Proof. unfold heaps. rewrite !in_app_iff. tauto. Qed.

  Lemma full_change e d m s1 ring x : core (LT m) s1 -> cross (LT m) (maxh s1) (minh s1) -> (count s1 = 0 \/ length (maxh s1) = index (count s1) + 1) ->
    Permutation ring (maxh s1 ++ minh s1 ++ nans s1) -> length ring = W -> In e ring -> get (elems s1) e = Some x ->
    (forall a, a <> e -> good (elems s1) a = good m a) ->
    (forall a, In a (heaps s1) -> a <> e -> vat (elems s1) a = Some true) -> (forall a, In a (nans s1) -> a <> e -> vat (elems s1) a = Some false) -> vat (elems s1) e = Some (valid d) ->
    exists s2 F, full_part e (is_loc (e_loc x) InNanList) d s1 = Some s2 /\ full index (LT (elems s1)) s2 /\ kept F (elems s1) (elems s2) /\
      oldest s2 = oldest s1 /\ newest s2 = newest s1 /\ Permutation ring (maxh s2 ++ minh s2 ++ nans s2) /\
      (forall a, In a (heaps s2) -> vat (elems s1) a = Some true) /\ (forall a, In a (nans s2) -> vat (elems s1) a = Some false).
  Proof.
    intros C X SZ P LR IR G GO VH VN VE. set (lt := LT (elems s1)) in *. pose proof (LT_swo (elems s1)) as O. fold lt in O. pose proof (LT_swo m) as O0.
    assert (SAME : forall a b, a <> e -> b <> e -> lt a b = LT m a b) by (intros; apply LT_ext; auto).
    assert (LN : length ring = count s1 + length (nans s1)) by (rewrite (Permutation_length P); unfold count, heaps; rewrite !app_length; lia).
    pose proof (c_dis _ _ C) as D.
    assert (LOC : loc_of (elems s1) e = Some (e_loc x)) by (unfold loc_of; now rewrite G).
    eapply Permutation_in in IR; [| exact P]. apply in_heaps in IR. destruct IR as [IH | IN].
    - assert (NN : ~ In e (nans s1)) by (apply (dis_heaps_nan s1 D e IH)).
      assert (CP : 0 < count s1) by (unfold count; destruct (heaps s1); [easy | cbn; lia]).
      destruct SZ as [SZ | SZ]; [lia |].
      assert (is_loc (e_loc x) InNanList = false) as ->.
      { apply in_app_or in IH. destruct IH as [IH | IH]; [rewrite (c_lmax _ _ C e IH) in LOC | rewrite (c_lmin _ _ C e IH) in LOC]; injection LOC as <-; reflexivity. }
      unfold full_part. destruct (valid d) eqn:VD; cbn [negb].
      + assert (AG : agreesE less lt (heaps s1) (elems s1)).
        { apply LT_agrees. intros a Ia. destruct (Nat.eq_dec a e) as [-> | NE]; auto. }
        assert (XE : forall a b, In a (maxh s1) -> In b (minh s1) -> a <> e -> b <> e -> lt b a = false) by (intros; rewrite SAME; auto).
        assert (FIN : forall s2, core lt s2 -> Permutation (heaps s1) (heaps s2) -> length (maxh s2) = length (maxh s1) -> rest s1 s2 -> kept (heaps s1) (elems s1) (elems s2) ->
          (forall a b, In a (maxh s2) -> In b (minh s2) -> a <> e -> b <> e -> lt b a = false) ->
          exists s3 F, PossiblySwapHeapHeads less s2 = Some s3 /\ full index lt s3 /\ kept F (elems s1) (elems s3) /\ oldest s3 = oldest s1 /\ newest s3 = newest s1 /\ Permutation ring (maxh s3 ++ minh s3 ++ nans s3) /\
            (forall a, In a (heaps s3) -> vat (elems s1) a = Some true) /\ (forall a, In a (nans s3) -> vat (elems s1) a = Some false)).
        { intros s2 C2 P2 L2 R2 K2 X2. destruct (swap_heads less index integral W lt O (heaps s1) e s2 C2) as (s3 & E3 & C3 & X3 & P3 & LA & LB & R3 & K3); auto.
          - eapply agreesE_kept; eauto.
          - intros a Ia. eapply Permutation_in; [symmetry; exact P2 | auto].
          - exists s3, (heaps s1 ++ heaps s2). assert (P4 : Permutation (heaps s1) (heaps s3)) by (etransitivity; eauto).
            assert (RR : rest s1 s3) by (eapply rest_trans; eauto). destruct RR as (RN & RO & RW).
            split; auto. split; [split; auto; split; auto; right; unfold count; rewrite <- (Permutation_length P4); fold (count s1); congruence |].
            split; [eapply kept_trans; eauto |]. split; auto. split; auto.
            split; [rewrite P, app_assoc, app_assoc; fold (heaps s1) (heaps s3); now rewrite P4, RN |].
            split.
            + intros a Ia. eapply Permutation_in in Ia; [| symmetry; exact P4]. destruct (Nat.eq_dec a e) as [-> |]; auto.
            + intros a Ia. rewrite RN in Ia. apply VN; auto. intros ->. auto. }
        apply in_app_or in IH. destruct IH as [IH | IH].
        * destruct (apply_max less (LT m) lt (heaps s1) e s1 O C AG (fun a H => H) IH) as (s2 & -> & C2 & P2 & M2 & R2 & K2).
          -- intros i Ei. eapply (change_heap (LT m) lt); eauto; [apply O0 | now apply NoDup_app_iff in D | apply C].
          -- eapply same_heap; [| apply (c_hmin _ _ C)]. intros a b Ia Ib. unfold gt. apply SAME; intros ->; now apply (dis_mm s1 D e).
          -- apply FIN; auto.
             ++ unfold heaps. now rewrite M2, P2.
             ++ now rewrite (Permutation_length P2).
             ++ eapply kept_incl; eauto. intros a Ia. apply in_or_app; auto.
             ++ intros a b Ia Ib. rewrite M2 in Ib. apply XE; auto. eapply Permutation_in; [symmetry; exact P2 | auto].
        * destruct (apply_min less (LT m) lt (heaps s1) e s1 O C AG (fun a H => H) IH) as (s2 & -> & C2 & P2 & M2 & R2 & K2).
          -- intros i Ei. apply (change_heap (gt (LT m)) (gt lt) (minh s1) i e); auto.
             ++ destruct (ok_gt _ O0) as (_ & _ & Z). exact Z.
             ++ intros a b Ia Ib Na Nb. unfold gt. auto.
             ++ apply NoDup_app_iff in D. destruct D as (_ & D & _). now apply NoDup_app_iff in D.
             ++ apply C.
          -- eapply same_heap; [| apply (c_hmax _ _ C)]. intros a b Ia Ib. apply SAME; intros ->; now apply (dis_mm s1 D e).
          -- apply FIN; auto.
             ++ unfold heaps. now rewrite M2, P2.
             ++ now rewrite M2.
             ++ eapply kept_incl; eauto. intros a Ia. apply in_or_app; auto.
             ++ intros a b Ia Ib. rewrite M2 in Ia. apply XE; auto. eapply Permutation_in; [symmetry; exact P2 | auto].
      + set (E := filter (fun a => negb (a =? e)) (heaps s1)).
        assert (EI : forall a, In a E <-> In a (heaps s1) /\ a <> e).
        { intros a. unfold E. rewrite filter_In. destruct (Nat.eqb_spec a e); cbn; intuition congruence. }
        assert (AG : agreesE less (LT m) E (elems s1)).
        { intros a b Ia Ib. apply EI in Ia, Ib. destruct Ia as [Ia Na], Ib as [Ib Nb]. rewrite <- SAME by auto. apply (LT_agrees (elems s1) E); [| apply EI; auto | apply EI; auto]. intros c Ic. apply EI in Ic. destruct Ic; auto. }
        assert (FIN : forall s2, core (LT m) s2 -> cross (LT m) (maxh s2) (minh s2) -> Permutation (heaps s1) (e :: heaps s2) -> (length (maxh s2) = length (maxh s1) \/ S (length (maxh s2)) = length (maxh s1)) -> rest s1 s2 -> kept (heaps s1) (elems s1) (elems s2) ->
          exists s3 F, (do t3 <- PushToNanList e s2; RebalanceHeaps less index MAX MIN t3) = Some s3 /\ full index lt s3 /\ kept F (elems s1) (elems s3) /\ oldest s3 = oldest s1 /\ newest s3 = newest s1 /\ Permutation ring (maxh s3 ++ minh s3 ++ nans s3) /\
            (forall a, In a (heaps s3) -> vat (elems s1) a = Some true) /\ (forall a, In a (nans s3) -> vat (elems s1) a = Some false)).
        { intros s2 C2 X2 P2 L2 R2 K2. destruct R2 as (RN & RO & RW).
          assert (H2 : forall a, In a (heaps s2) -> In a (heaps s1) /\ a <> e).
          { intros a Ia. split; [eapply Permutation_in; [symmetry; exact P2 | now right] |]. intros ->.
            rewrite app_assoc in D. fold (heaps s1) in D. apply NoDup_app_iff in D. destruct D as (D & _). eapply Permutation_NoDup in D; [| exact P2]. apply NoDup_cons_iff in D. tauto. }
          destruct (kept_get _ _ _ _ _ K2 G) as (y & Gy & _).
          destruct (push_nan (LT m) e s2 y C2 Gy) as (s3 & -> & C3 & MA & MI & NA & O3 & N3 & K3).
          { rewrite in_heaps, RN. intros [H | H]; [| auto]. apply H2 in H. tauto. }
          assert (H3 : heaps s3 = heaps s2) by (unfold heaps; congruence).
          assert (CN : S (count s3) = count s1) by (unfold count; rewrite H3, (Permutation_length P2); reflexivity).
          destruct (rebalance_ok less index integral W IX (LT m) O0 E s3 C3) as (s4 & E4 & F4 & P4 & R4 & K4).
          - rewrite MA, MI. auto.
          - eapply agreesE_kept; [| exact K3]. eapply agreesE_kept; eauto.
          - intros a Ia. apply EI. apply H2. now rewrite <- H3.
          - lia.
          - rewrite CN, MA. lia.
          - exists s4, (heaps s1 ++ [e] ++ heaps s3). destruct R4 as (RN4 & RO4 & RW4).
            assert (HI : forall a, In a (heaps s4) -> In a (heaps s1) /\ a <> e).
            { intros a Ia. apply H2. rewrite <- H3. eapply Permutation_in; [symmetry; exact P4 | auto]. }
            split; auto. split; [eapply full_ext; [| exact F4]; intros a b Ia Ib; apply SAME; now apply HI |].
            split; [eapply kept_trans; eauto; eapply kept_trans; eauto |]. split; [congruence |]. split; [congruence |]. split; [| split].
            + rewrite P, app_assoc, app_assoc. fold (heaps s1) (heaps s4). rewrite <- P4, RN4, NA, H3, RN, P2. rewrite app_assoc. cbn. rewrite Permutation_cons_append. reflexivity.
            + intros a Ia. apply HI in Ia. destruct Ia. auto.
            + intros a Ia. rewrite RN4, NA, RN in Ia. apply in_app_or in Ia. destruct Ia as [Ia | [<- | []]]; auto. apply VN; auto. intros ->. auto. }
        apply in_app_or in IH. destruct IH as [IH | IH].
        * destruct (erase_max less (LT m) O0 E e s1 C AG) as (s2 & -> & C2 & P2 & M2 & R2 & K2); auto; [intros; apply EI; auto |].
          apply FIN; auto.
          -- intros a b Ia Ib. rewrite M2 in Ib. apply X; auto. eapply Permutation_in; [symmetry; exact P2 | now right].
          -- unfold heaps. now rewrite M2, P2.
          -- right. now rewrite (Permutation_length P2).
          -- eapply kept_incl; eauto. intros a Ia. apply in_or_app; auto.
        * destruct (erase_min less (LT m) O0 E e s1 C AG) as (s2 & -> & C2 & P2 & M2 & R2 & K2); auto; [intros; apply EI; auto |].
          apply FIN; auto.
          -- intros a b Ia Ib. rewrite M2 in Ia. apply X; auto. eapply Permutation_in; [symmetry; exact P2 | now right].
          -- unfold heaps. rewrite M2, P2. symmetry. apply Permutation_middle.
          -- left. now rewrite M2.
          -- eapply kept_incl; eauto. intros a Ia. apply in_or_app; auto.
    - assert (NH : ~ In e (heaps s1)) by (intros H; now apply (dis_heaps_nan s1 D e H)).
      assert (is_loc (e_loc x) InNanList = true) as -> by (rewrite (c_lnan _ _ C e IN) in LOC; injection LOC as <-; reflexivity).
      assert (NE : forall a, In a (heaps s1) -> a <> e) by (intros a Ia ->; auto).
      assert (FU : full index lt s1).
      { eapply full_ext; [| split; [exact C | split; [exact X | exact SZ]]]. intros. apply SAME; auto. }
      unfold full_part. destruct (valid d) eqn:VD; cbn [negb].
      + destruct FU as (C1 & X1 & _). destruct (erase_nan lt e s1 x C1 G IN) as (s2 & -> & C2 & MA & MI & PN & O2 & N2 & K2).
        assert (H2 : heaps s2 = heaps s1) by (unfold heaps; congruence). destruct (kept_get _ _ _ _ _ K2 G) as (y & Gy & _).
        assert (NI : ~ In e (nans s2)).
        { rewrite app_assoc in D. apply NoDup_app_iff in D. destruct D as (_ & D & _). eapply Permutation_NoDup in D; [| exact PN]. apply NoDup_cons_iff in D. tauto. }
        destruct (push_correct less index integral W IX lt O (e :: heaps s1) e s2 y) as (s3 & E3 & F3 & P3 & R3 & K3).
        * split; auto. split; [rewrite MA, MI; auto |]. unfold count. rewrite H2, MA. exact SZ.
        * eapply agreesE_kept; [| exact K2]. apply LT_agrees. intros a [<- | Ia]; auto.
        * rewrite H2. intros a Ia. now right.
        * now left.
        * rewrite in_heaps, H2. tauto.
        * exact Gy.
        * unfold count. rewrite H2. fold (count s1). apply Permutation_length in PN. cbn in PN. lia.
        * exists s3, ([e] ++ (heaps s2 ++ [e])). destruct R3 as (RN & RO & RW). split; auto. split; auto. split; [eapply kept_trans; eauto |]. split; [congruence |]. split; [congruence |]. split; [| split].
          -- rewrite P, app_assoc, app_assoc. fold (heaps s1) (heaps s3). rewrite <- P3, RN, H2, PN, <- app_assoc. reflexivity.
          -- intros a Ia. eapply Permutation_in in Ia; [| symmetry; exact P3]. rewrite H2 in Ia. apply in_app_or in Ia. destruct Ia as [Ia | [<- | []]]; auto.
          -- intros a Ia. rewrite RN in Ia. apply VN; [eapply Permutation_in; [symmetry; exact PN | now right] |]. intros ->. auto.
      + exists s1, []. split; auto. split; auto. split; [apply kept_refl |]. split; auto. split; auto. split; auto. split; auto.
        intros a Ia. destruct (Nat.eq_dec a e) as [-> |]; auto.
  Qed.
End RQ.
