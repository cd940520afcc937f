(** Proofs about work space buffers. *)
From Verif Require Import Base WorkModel WorkSpec.
Local Open Scope Z_scope.

Record winv (s : ws) (held : list (nat * Z)) : Prop := {
  w_alive : NoDup (map fst (alive s));
  w_held : NoDup (map fst held);
  w_fresh : forall p n, In (p, n) (alive s) -> (p < fresh s)%nat;
  w_ok : forall p size, In (p, size) held -> exists n, In (p, n) (alive s) /\ size <= n;
  w_glob : forall g, glob s = Some g -> In (g, gsize s) (alive s);
  w_lost : none_lost s held;
  w_one : cached s = true -> (length held <= 1)%nat;
  w_exact : cached s = true -> forall p size, In (p, size) held -> glob s = Some p \/ (glob s = None /\ In (p, size) (alive s));
  w_apart : cached s = false -> forall g, glob s = Some g -> ~ In g (map fst held) }.

Lemma in_fst {A B} (a : A) (l : list (A * B)) : In a (map fst l) <-> exists b, In (a, b) l.
Proof. rewrite in_map_iff. split; [intros ([x y] & <- & H); eauto|intros (b & H); exists (a, b); auto]. Qed.
Lemma wfree_ok p n s : In (p, n) (alive s) -> wfree p s = Some (set_alive (filter (fun b => negb (fst b =? p)%nat) (alive s)) s).
Proof.
  intros H. unfold wfree. assert (existsb (fun b => (fst b =? p)%nat) (alive s) = true) as ->; auto.
  apply existsb_exists. exists (p, n). split; auto. apply Nat.eqb_refl.
Qed.
Lemma filter_nodup p (l : list (nat * Z)) : NoDup (map fst l) -> NoDup (map fst (filter (fun b => negb (fst b =? p)%nat) l)).
Proof.
  induction l as [|[a b] l IH]; simpl; auto. intros N. inversion N; subst. destruct (Nat.eqb_spec a p); simpl; auto. constructor; auto.
  rewrite in_fst. intros (y & Hy). apply filter_In in Hy as [Hy _]. apply H1, in_fst. eauto.
Qed.
Lemma filter_in p q n (l : list (nat * Z)) : In (q, n) (filter (fun b => negb (fst b =? p)%nat) l) <-> In (q, n) l /\ q <> p.
Proof. rewrite filter_In. simpl. destruct (Nat.eqb_spec q p); simpl; intuition congruence. Qed.
Lemma nodup_fst_eq (l : list (nat * Z)) p n m : NoDup (map fst l) -> In (p, n) l -> In (p, m) l -> n = m.
Proof.
  induction l as [|[a b] l IH]; simpl; [tauto|]. intros N. inversion N; subst. intros [H|H] [G|G]; auto; try congruence.
  - injection H as -> ->. exfalso. apply H1, in_fst. eauto.
  - injection G as -> ->. exfalso. apply H1, in_fst. eauto.
Qed.
Lemma held_one {A} (h : list A) i x : (length h <= 1)%nat -> nth_error h i = Some x -> h = [x] /\ i = 0%nat.
Proof. destruct h as [|y [|]]; cbn [length]; intros L H; [destruct i; discriminate| |lia]. destruct i as [|[|i]]; [|discriminate|discriminate]. injection H as ->. auto. Qed.
Lemma remove_in {A} (h : list A) i x : nth_error h i = Some x -> forall y, In y (firstn i h ++ skipn (S i) h) -> In y h.
Proof.
  intros _ y H. rewrite <- (firstn_skipn i h). apply in_app_iff in H as [H|H]; apply in_app_iff; auto. right.
  revert i H. induction h as [|z h IH]; intros [|i] H; simpl in *; auto.
Qed.
Lemma remove_fst (h : list (nat * Z)) i p size : NoDup (map fst h) -> nth_error h i = Some (p, size) ->
  NoDup (map fst (firstn i h ++ skipn (S i) h)) /\ forall q, In q (map fst h) <-> q = p \/ (q <> p /\ In q (map fst (firstn i h ++ skipn (S i) h))).
Proof.
  intros N H. assert (E : h = firstn i h ++ (p, size) :: skipn (S i) h).
  { revert i H. clear N. induction h as [|z h IH]; intros [|i] H; simpl in *; try discriminate; [congruence|]. f_equal. now apply IH. }
  rewrite E in N at 1. rewrite map_app in N. cbn [map fst] in N. pose proof (NoDup_remove_1 _ _ _ N) as N1. pose proof (NoDup_remove_2 _ _ _ N) as N2. rewrite <- map_app in *.
  split; auto. intros q. rewrite E at 1. rewrite map_app. cbn [map fst]. rewrite in_app_iff. simpl. rewrite map_app in *. rewrite in_app_iff in *.
  destruct (Nat.eq_dec q p) as [->|]; intuition congruence.
Qed.

Lemma alloc_fresh size s held : winv s held -> 0 <= size -> let '(p, s1) := malloc size s in
  winv s1 ((p, size) :: held) \/ cached s = true.
Proof.
  intros I Hs. simpl. destruct (cached s) eqn:C; auto. left. constructor; simpl; try (intros X; congruence).
  - constructor; [|apply I]. rewrite in_fst. intros (n & H). apply (w_fresh _ _ I) in H. lia.
  - constructor; [|apply I]. rewrite in_fst. intros (n & H). destruct (w_ok _ _ I _ _ H) as (m & H' & _). apply (w_fresh _ _ I) in H'. lia.
  - intros p n [[= <- <-]|H]; [lia|]. apply (w_fresh _ _ I) in H. lia.
  - intros p n [[= <- <-]|H]; [exists size; split; auto; lia|]. destruct (w_ok _ _ I _ _ H) as (m & H' & L). eauto.
  - intros g G. right. now apply (w_glob _ _ I).
  - intros p n [[= <- <-]|H]; simpl; auto. destruct (w_lost _ _ I _ _ H); auto.
  - intros _ g G [<-|H]; [|now apply (w_apart _ _ I C g G)]. apply (w_glob _ _ I), (w_fresh _ _ I) in G. lia.
Qed.

Lemma alloc_cached size ok s held : winv s held -> cached s = true -> held = [] -> 0 <= size ->
  exists r s', WorkSpaceAlloc size ok s = Some (r, s') /\ cached s' = true /\ winv s' (match r with Some p => (p, size) :: held | None => held end).
Proof.
  intros I C -> Hs. unfold WorkSpaceAlloc. rewrite C.
  assert (X : forall g, glob s = Some g -> size <= gsize s -> winv s [(g, size)]).
  { intros g G L. pose proof (w_glob _ _ I g G) as GA. constructor; simpl; try apply I.
    - repeat constructor; auto.
    - intros p n [[= <- <-]|[]]. eauto.
    - intros p n H. destruct (w_lost _ _ I _ _ H) as [[]|]; auto.
    - intros _. simpl. lia.
    - intros _ p n [[= <- <-]|[]]. auto.
    - intros X. congruence. }
  assert (Y : ok = true -> exists r s', (let (p, s1) := malloc size s in match FreeWorkSpaceAlloc (glob s1) s1 with Some s2 => Some (Some p, s2) | None => None end) = Some (r, s') /\ cached s' = true /\
    winv s' (match r with Some p => [(p, size)] | None => [] end)).
  { intros _. simpl. unfold FreeWorkSpaceAlloc. cbn [cached glob]. rewrite C. destruct (glob s) as [g|] eqn:G.
    - cbn [same]. rewrite Nat.eqb_refl. pose proof (w_glob _ _ I g G) as GA. pose proof (w_fresh _ _ I _ _ GA) as GF.
      rewrite (wfree_ok g (gsize s)) by (simpl; auto). eexists _, _. split; [reflexivity|]. split; auto. simpl.
      destruct (Nat.eqb_spec (fresh s) g); [lia|]. simpl. constructor; simpl; try discriminate.
      + constructor; [|apply filter_nodup, I]. rewrite in_fst. intros (m & H). apply filter_in in H as [H _]. apply (w_fresh _ _ I) in H. lia.
      + repeat constructor. auto.
      + intros p m [[= <- <-]|H]; [lia|]. apply filter_in in H as [H _]. apply (w_fresh _ _ I) in H. lia.
      + intros p m [[= <- <-]|[]]. exists size. split; auto. lia.
      + intros p m [[= <- <-]|H]; simpl; auto. apply filter_in in H as [H N]. destruct (w_lost _ _ I _ _ H) as [[]|]. congruence.
      + intros _. simpl. lia.
      + intros _ p m [[= <- <-]|[]]. auto.
    - eexists _, _. split; [reflexivity|]. split; auto. constructor; simpl; try discriminate.
      + constructor; [|apply I]. rewrite in_fst. intros (m & H). apply (w_fresh _ _ I) in H. lia.
      + repeat constructor. auto.
      + intros p m [[= <- <-]|H]; [lia|]. apply (w_fresh _ _ I) in H. lia.
      + intros p m [[= <- <-]|[]]. exists size. split; auto. lia.
      + intros p m [[= <- <-]|H]; simpl; auto. destruct (w_lost _ _ I _ _ H) as [[]|]; congruence.
      + intros _. simpl. lia.
      + intros _ p m [[= <- <-]|[]]. auto. }
  assert (Z0 : exists r s', Some (None, s) = Some (r, s') /\ cached s' = true /\ winv s' (match r with Some p => (p, size) :: @nil (nat * Z) | None => [] end)).
  { exists None, s. auto. }
  destruct (glob s) as [g|] eqn:G.
  - destruct (Z.leb_spec size (gsize s)).
    + exists (Some g), s. split; auto.
    + destruct ok; [apply Y; auto|exact Z0].
  - destruct ok; [apply Y; auto|exact Z0].
Qed.

Lemma free_held s held i p size : winv s held -> nth_error held i = Some (p, size) ->
  exists n, In (p, n) (alive s) /\ (cached s = false -> exists s', wfree p s = Some s' /\ winv s' (firstn i held ++ skipn (S i) held)).
Proof.
  intros I H. pose proof (nth_error_In _ _ H) as HI. destruct (w_ok _ _ I _ _ HI) as (n & HA & HL). exists n. split; auto. intros C.
  rewrite (wfree_ok p n) by auto. eexists. split; [reflexivity|].
  destruct (remove_fst _ _ _ _ (w_held _ _ I) H) as [N R].
  constructor; simpl; try (intros X; congruence).
  - apply filter_nodup, I.
  - exact N.
  - intros q m Q. apply filter_in in Q as [Q _]. now apply (w_fresh _ _ I) in Q.
  - intros q m Q. assert (q <> p).
    { intros ->. assert (QP : In p (map fst (firstn i held ++ skipn (S i) held))) by (apply in_fst; eauto).
      pose proof (w_held _ _ I) as ND. clear - H ND QP.
      revert i H QP. induction held as [|[a b] h IH]; intros [|i] H QP; simpl in *; try discriminate.
      - injection H as -> ->. inversion ND; subst. contradiction.
      - inversion ND; subst. destruct QP as [->|QP]; [|eapply IH; eauto]. apply H2, in_fst. exists size. now apply nth_error_In in H. }
    apply (remove_in _ _ _ H) in Q. destruct (w_ok _ _ I _ _ Q) as (k & K & L). exists k. split; auto. apply filter_in. auto.
  - intros g G. apply filter_in. split; [now apply (w_glob _ _ I)|]. intros ->. apply (w_apart _ _ I C p G), in_fst. eauto.
  - intros q m Q. apply filter_in in Q as [Q NQ]. destruct (w_lost _ _ I _ _ Q) as [L|L]; auto. apply R in L as [L|[_ L]]; auto. contradiction.
  - intros _ g G K. apply (w_apart _ _ I C g G). apply in_fst in K as (b & K). apply (remove_in _ _ _ H) in K. apply in_fst. eauto.
Qed.

Lemma winv_step o s h : winv s h -> allowed o s h -> exists s' h', wstep o s h = Some (s', h') /\ winv s' h'.
Proof.
  intros I A. destruct o as [size ok|i|c|]; simpl in A.
  - destruct A as [Hs A]. simpl. destruct (cached s) eqn:C.
    + destruct (alloc_cached size ok s h I C (A eq_refl) Hs) as (r & s' & -> & _ & I'). destruct r; eauto.
    + unfold WorkSpaceAlloc. rewrite C. destruct ok; [|eauto]. pose proof (alloc_fresh size s h I Hs) as F. destruct (malloc size s) as [p s1]. destruct F as [F|F]; [eauto|congruence].
  - simpl. destruct (nth_error h i) as [[p size]|] eqn:H; [|eauto].
    destruct (free_held _ _ _ _ _ I H) as (n & HA & F). unfold WorkSpaceFreeAlloc. destruct (cached s) eqn:C.
    + destruct (held_one _ _ _ (w_one _ _ I C) H) as [-> ->]. simpl.
      assert (SZ : size <= n) by (destruct (w_ok _ _ I p size (or_introl eq_refl)) as (m & M & L); rewrite (nodup_fst_eq _ _ _ _ (w_alive _ _ I) HA M); auto).
      destruct (glob s) as [g|] eqn:G.
      * pose proof (w_glob _ _ I g G) as GA. destruct (Nat.eqb_spec g p) as [->|NE].
        -- eexists _, _. split; [reflexivity|]. constructor; simpl; try apply I; auto; try apply NoDup_nil; try tauto; try discriminate; try (intros X; congruence).
           ++ intros q m Q. destruct (w_lost _ _ I _ _ Q) as [[<-|[]]|]; auto.
        -- exfalso. destruct (w_exact _ _ I C p size (or_introl eq_refl)) as [K|[K _]]; congruence.
      * eexists _, _. split; [reflexivity|]. destruct (w_exact _ _ I C p size (or_introl eq_refl)) as [K|[_ K]]; [congruence|].
        constructor; simpl; try apply I; auto; try apply NoDup_nil; try tauto; try discriminate; try (intros X; congruence).
        -- intros q m Q. destruct (w_lost _ _ I _ _ Q) as [[<-|[]]|]; auto. congruence.
    + destruct (F eq_refl) as (s' & -> & I'). eauto.
  - subst h. simpl. eexists _, _. split; [reflexivity|]. constructor; simpl; try apply I; auto; tauto.
  - destruct A as [C ->]. simpl. unfold CollectNow, FreeWorkSpaceAlloc. rewrite C. destruct (glob s) as [g|] eqn:G; [|eauto].
    cbn [same]. rewrite Nat.eqb_refl. pose proof (w_glob _ _ I g G) as GA. rewrite (wfree_ok g (gsize s)) by auto. eexists _, _. split; [reflexivity|].
    constructor; simpl; try apply I; auto; try discriminate.
    + apply filter_nodup, I.
    + intros q m Q. apply filter_in in Q as [Q _]. now apply (w_fresh _ _ I) in Q.
    + tauto.
    + intros q m Q. apply filter_in in Q as [Q NQ]. destruct (w_lost _ _ I _ _ Q) as [[]|]. congruence.
    + tauto.
Qed.
Lemma winv_reached s h : reached s h -> winv s h.
Proof.
  induction 1 as [|o s h s' h' R IH A E].
  - constructor; simpl; try tauto; try apply NoDup_nil; try discriminate; try (intros; lia). intros p n [].
  - destruct (winv_step o s h IH A) as (s2 & h2 & E2 & I). rewrite E in E2. injection E2 as -> ->. exact I.
Qed.
Lemma reached_separate s h : reached s h -> separate s h /\ none_lost s h.
Proof. intros R. apply winv_reached in R. split; [|apply R]. split; [apply R|]. split; apply R. Qed.
Lemma reached_next o s h : reached s h -> allowed o s h -> exists s' h', wstep o s h = Some (s', h').
Proof. intros R A. destruct (winv_step o s h (winv_reached s h R) A) as (s' & h' & E & _). eauto. Qed.
(** without caching any number of buffers may be held *)
Lemma reached_run ops : forall s h, reached s h -> cached s = false -> Forall (fun o => match o with WAlloc n _ => 0 <= n | WFree _ => True | _ => False end) ops ->
  exists s' h', wrun ops s h = Some (s', h') /\ reached s' h' /\ cached s' = false.
Proof.
  induction ops as [|o ops IH]; intros s h R C F; simpl; [eauto|]. inversion F as [|? ? F1 F2]; subst.
  assert (A : allowed o s h) by (destruct o; simpl in *; try tauto; split; auto; congruence).
  destruct (reached_next o s h R A) as (s' & h' & E). rewrite E. apply IH; auto; [eapply reached_step; eauto|].
  destruct o as [size ok|i| |]; try contradiction; simpl in E.
  - unfold WorkSpaceAlloc in E. rewrite C in E. destruct ok; simpl in E; injection E as <- <-; auto.
  - destruct (nth_error h i) as [[p size]|]; [|congruence]. unfold WorkSpaceFreeAlloc in E. rewrite C in E. destruct (wfree p s) as [s2|] eqn:W; [|discriminate]. injection E as <- <-.
    unfold wfree in W. destruct (existsb _ _); [|discriminate]. injection W as <-. auto.
Qed.
(** returning a buffer while another is kept *)
Lemma free_keeps p size g s : cached s = true -> glob s = Some g -> p <> g -> In (p, size) (alive s) -> In (g, gsize s) (alive s) ->
  exists s' k, WorkSpaceFreeAlloc p size s = Some s' /\ glob s' = Some k /\ gsize s' = Z.max size (gsize s) /\ In (k, gsize s') (alive s') /\
    (forall q n, In (q, n) (alive s') <-> In (q, n) (alive s) /\ (q <> p /\ q <> g \/ q = k)).
Proof.
  intros C G N P A. unfold WorkSpaceFreeAlloc. rewrite C, G. destruct (Nat.eqb_spec g p); [congruence|]. destruct (Z.ltb_spec (gsize s) size).
  - rewrite (wfree_ok g (gsize s)) by auto. eexists _, p. split; [reflexivity|]. simpl. split; auto. split; [lia|]. split; [apply filter_in; auto|].
    intros q m. rewrite filter_in. destruct (Nat.eq_dec q p) as [->|]; intuition congruence.
  - rewrite (wfree_ok p size) by auto. eexists _, g. split; [reflexivity|]. simpl. split; auto. split; [lia|]. split; [apply filter_in; split; auto|].
    intros q m. rewrite filter_in. destruct (Nat.eq_dec q g) as [->|]; intuition congruence.
Qed.
