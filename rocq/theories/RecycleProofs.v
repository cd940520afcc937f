(** Arrays kept for reuse: proofs. *)
From Coq Require Import List ZArith Lia Bool.
From Verif Require Import Base RecycleModel RecycleSpec.
Import ListNotations.
Local Open Scope Z_scope.

Definition at_slot (s : rstate) (l t : Z) (k : nat) (it : ritem) : Prop := nth_error (items (tab s l t)) k = Some (Some it).
Record INV (s : rstate) (own : list Z) : Prop := {
  i_len : length own = length (objs s);
  i_own : forall o, 0 <= nth o own 0;
  i_refs : forall o b, nth_error (objs s) o = Some b ->
             (in_slot s o /\ o_refs b = nth o own 0 + 1) \/ (~ in_slot s o /\ o_refs b = nth o own 0);
  i_dom : forall o b, nth_error (objs s) o = Some b -> 0 <= o_type b /\ 0 <= o_size b < 2 ^ 63;
  i_four : forall l t, length (items (tab s l t)) = SEARCH;
  i_used : forall l t, head (tab s l t) - tail (tab s l t) = used (items (tab s l t));
  i_item : forall l t k it, at_slot s l t k it -> exists b, nth_error (objs s) (r_arr it) = Some b /\ o_type b = t /\ o_size b = r_size it /\ lzcnt (o_size b) = l /\ 1 <= o_size b;
  i_one : forall l t k it k' it', at_slot s l t k it -> at_slot s l t k' it' -> r_arr it = r_arr it' -> k = k' }.

Definition same_shape (s s' : rstate) : Prop := forall p b, nth_error (objs s) p = Some b -> exists b', nth_error (objs s') p = Some b' /\ o_type b' = o_type b /\ o_size b' = o_size b /\ o_mem b' = o_mem b.
Ltac sp := repeat (lazymatch goal with |- INV _ _ => fail | |- same_shape _ _ => fail | _ => split end).
Lemma own_nth own o d p : (o < length own)%nat -> nth p (own_add own o d) 0 = nth p own 0 + (if (o =? p)%nat then d else 0).
Proof.
  intros L; unfold own_add. destruct (Nat.eqb_spec o p) as [-> | N].
  - apply nth_error_nth. now apply nth_error_upd_eq.
  - rewrite Z.add_0_r. destruct (Nat.lt_ge_cases p (length own)) as [Q | Q].
    + apply nth_error_nth. rewrite nth_error_upd_neq by auto. now apply nth_error_nth'.
    + rewrite !nth_overflow by (rewrite ?length_upd; lia). reflexivity.
Qed.
Lemma own_len own o d : length (own_add own o d) = length own.
Proof. apply length_upd. Qed.
Lemma own_cancel own o d e : d + e = 0 -> own_add (own_add own o d) o e = own.
Proof.
  intros E. apply (list_ext (own_add (own_add own o d) o e) own). intros i. unfold own_add.
  destruct (Nat.lt_ge_cases o (length own)) as [L | L].
  - rewrite upd_upd. destruct (Nat.eq_dec o i) as [<- | N].
    + rewrite nth_error_upd_eq by auto. rewrite (nth_error_nth' own 0 L). f_equal.
      change (upd own o (nth o own 0 + d)) with (own_add own o d). rewrite own_nth, Nat.eqb_refl by auto. lia.
    + now rewrite nth_error_upd_neq.
  - now rewrite !upd_oob by (rewrite ?length_upd; lia).
Qed.

Lemma nth_error_lt' {A} (l : list A) i x : nth_error l i = Some x -> (i < length l)%nat.
Proof. intros E. apply nth_error_Some. congruence. Qed.

(** ** The three primitives *)
Lemma in_slot_set s objs' o : in_slot {| tab := tab s; objs := objs' |} o <-> in_slot s o.
Proof. reflexivity. Qed.

Lemma add_ref_ok s own o d s' : INV s own -> add_ref o d s = Some s' -> 0 <= nth o own 0 + d -> INV s' (own_add own o d).
Proof.
  intros I E D. unfold add_ref in E. destruct (nth_error (objs s) o) as [b |] eqn:B; [| discriminate].
  destruct (0 <? o_refs b) eqn:P; [| discriminate]. inversion E; subst s'; clear E.
  pose proof (nth_error_lt' _ _ _ B) as L. rewrite <- (i_len s own I) in L.
  assert (U : forall p b', nth_error (upd (objs s) o {| o_type := o_type b; o_size := o_size b; o_mem := o_mem b; o_refs := o_refs b + d |}) p = Some b' ->
     exists b0, nth_error (objs s) p = Some b0 /\ o_type b' = o_type b0 /\ o_size b' = o_size b0 /\ o_refs b' = o_refs b0 + if (o =? p)%nat then d else 0).
  { intros p b' Q. rewrite nth_error_upd in Q. destruct (Nat.eqb_spec o p) as [-> | N]; cbn [andb] in Q.
    - replace (p <? length (objs s))%nat with true in Q by (symmetry; apply Nat.ltb_lt; rewrite <- (i_len s own I); auto).
      inversion Q; subst b'. exists b. auto.
    - exists b'. rewrite Z.add_0_r. auto. }
  constructor; cbn [tab objs].
  - rewrite own_len, length_upd. apply (i_len s own I).
  - intros p. rewrite own_nth by auto. pose proof (i_own s own I p). destruct (Nat.eqb_spec o p); [subst p|]; lia.
  - intros p b' Q. destruct (U p b' Q) as (b0 & Q0 & _ & _ & R). rewrite own_nth by auto.
    destruct (i_refs s own I p b0 Q0) as [[X Y] | [X Y]]; [left | right]; (split; [exact X | lia]).
  - intros p b' Q. destruct (U p b' Q) as (b0 & Q0 & T & Z0 & _). rewrite T, Z0. apply (i_dom s own I p b0 Q0).
  - apply (i_four s own I).
  - apply (i_used s own I).
  - intros l t k it A. destruct (i_item s own I l t k it A) as (b0 & Q0 & R).
    destruct (Nat.eq_dec o (r_arr it)) as [-> | N].
    + rewrite nth_error_upd_eq by (rewrite <- (i_len s own I); auto). rewrite B in Q0. inversion Q0; subst b0. eexists; split; [reflexivity |]. exact R.
    + rewrite nth_error_upd_neq by auto. exists b0. auto.
  - exact (i_one s own I).
Qed.

Lemma place_one s own l t k it l' t' k' it' : INV s own -> at_slot s l t k it -> at_slot s l' t' k' it' -> r_arr it = r_arr it' -> l = l' /\ t = t' /\ k = k'.
Proof.
  intros I A A' E. destruct (i_item _ _ I _ _ _ _ A) as (b & B & T & _ & L & _). destruct (i_item _ _ I _ _ _ _ A') as (b' & B' & T' & _ & L' & _).
  rewrite E in B. rewrite B in B'. inversion B'; subst b'. subst l' t' l t. sp. eapply (i_one _ _ I); eauto.
Qed.

Lemma tab_set l t L s l' t' : tab (set_list l t L s) l' t' = if (l' =? l) && (t' =? t) then L else tab s l' t'.
Proof. reflexivity. Qed.
Lemma at_set_upd s l t k x h tl l' t' k' it' :
  at_slot (set_list l t {| head := h; tail := tl; items := upd (items (tab s l t)) k x |} s) l' t' k' it' ->
  (l' = l /\ t' = t /\ k' = k /\ x = Some it') \/ (~ (l' = l /\ t' = t /\ k' = k) /\ at_slot s l' t' k' it').
Proof.
  unfold at_slot. rewrite tab_set. destruct (Z.eqb_spec l' l) as [-> | N]; cbn [andb].
  - destruct (Z.eqb_spec t' t) as [-> | N]; cbn [items].
    + destruct (Nat.eq_dec k k') as [<- | N].
      * destruct (Nat.lt_ge_cases k (length (items (tab s l t)))) as [Q | Q].
        -- rewrite nth_error_upd_eq by auto. intros X. inversion X. auto.
        -- rewrite upd_oob by auto. intros X. apply nth_error_lt' in X. lia.
      * rewrite nth_error_upd_neq by auto. intros X. right. split; [intros (_ & _ & Q); congruence | exact X].
    + intros X. right. split; [intros (_ & Q & _); congruence | exact X].
  - intros X. right. split; [intros (Q & _); congruence | exact X].
Qed.
Lemma at_set_other s l t k x h tl l' t' k' it' :
  ~ (l' = l /\ t' = t /\ k' = k) -> at_slot s l' t' k' it' ->
  at_slot (set_list l t {| head := h; tail := tl; items := upd (items (tab s l t)) k x |} s) l' t' k' it'.
Proof.
  intros N A. unfold at_slot in *. rewrite tab_set. destruct (Z.eqb_spec l' l) as [-> | M]; cbn [andb]; auto.
  destruct (Z.eqb_spec t' t) as [-> | M]; cbn [items]; auto. rewrite nth_error_upd_neq; auto.
Qed.
Lemma at_set_here s own l t k it h tl : INV s own -> (k < SEARCH)%nat ->
  at_slot (set_list l t {| head := h; tail := tl; items := upd (items (tab s l t)) k (Some it) |} s) l t k it.
Proof.
  intros I K. unfold at_slot. rewrite tab_set, !Z.eqb_refl. cbn [andb items]. apply nth_error_upd_eq. rewrite (i_four _ _ I). exact K.
Qed.

Lemma remove_slot s own l t k it o : INV s own -> at_slot s l t k it -> in_slot (RemoveFromList l t k s) o <-> in_slot s o /\ o <> r_arr it.
Proof.
  intros I A. unfold RemoveFromList. split.
  - intros (l' & t' & k' & it' & A' & <-). destruct (at_set_upd _ _ _ _ _ _ _ _ _ _ _ A') as [(_ & _ & _ & X) | [N X]]; [discriminate |].
    split; [exists l', t', k', it'; auto |]. intros E. apply N. destruct (place_one s own _ _ _ _ _ _ _ _ I A X (eq_sym E)) as (-> & -> & ->). auto.
  - intros [(l' & t' & k' & it' & A' & <-) N]. exists l', t', k', it'. split; auto. apply at_set_other; auto.
    intros (-> & -> & ->). unfold at_slot in A. rewrite A in A'. inversion A'; subst. now apply N.
Qed.

Lemma take_ok s own l t k it : INV s own -> at_slot s l t k it -> INV (RemoveFromList l t k s) (own_add own (r_arr it) 1).
Proof.
  intros I A. destruct (i_item _ _ I _ _ _ _ A) as (b & B & T & Z0 & Lz & S1).
  pose proof (nth_error_lt' _ _ _ B) as L. rewrite <- (i_len s own I) in L.
  constructor.
  - rewrite own_len. apply (i_len _ _ I).
  - intros p. rewrite own_nth by auto. pose proof (i_own _ _ I p). destruct (_ =? _)%nat; lia.
  - intros p b' Q. change (nth_error (objs s) p = Some b') in Q. rewrite (remove_slot s own _ _ _ it) by auto. rewrite own_nth by auto.
    destruct (Nat.eqb_spec (r_arr it) p) as [E | N].
    + subst p. destruct (i_refs _ _ I _ _ Q) as [[X Y] | [X Y]]; [right; split; [intros [_ W]; now apply W | lia] |].
      exfalso. apply X. exists l, t, k, it. auto.
    + rewrite Z.add_0_r. destruct (i_refs _ _ I _ _ Q) as [[X Y] | [X Y]]; [left | right]; (split; [| exact Y]); [auto | tauto].
  - intros p b' Q. apply (i_dom _ _ I p b' Q).
  - intros l' t'. unfold RemoveFromList. rewrite tab_set. destruct (_ && _); cbn [items]; rewrite ?length_upd; apply (i_four _ _ I).
  - intros l' t'. unfold RemoveFromList. rewrite tab_set. destruct ((l' =? l) && (t' =? t)); [| apply (i_used _ _ I)].
    cbn [head tail items]. pose proof (i_used _ _ I l t) as U. unfold used in *.
    pose proof (countb_upd (fun x : option ritem => match x with Some _ => true | None => false end) _ k None _ A) as W. cbn beta iota in W. lia.
  - intros l' t' k' it' A'. destruct (at_set_upd _ _ _ _ _ _ _ _ _ _ _ A') as [(_ & _ & _ & X) | [N X]]; [discriminate |].
    exact (i_item _ _ I _ _ _ _ X).
  - intros l' t' k1 it1 k2 it2 A1 A2 E. destruct (at_set_upd _ _ _ _ _ _ _ _ _ _ _ A1) as [(_ & _ & _ & X) | [_ X1]]; [discriminate |].
    destruct (at_set_upd _ _ _ _ _ _ _ _ _ _ _ A2) as [(_ & _ & _ & X) | [_ X2]]; [discriminate |]. eapply (i_one _ _ I); eauto.
Qed.

Lemma put_ok s own l t k it b : INV s own -> nth_error (items (tab s l t)) k = Some None -> nth_error (objs s) (r_arr it) = Some b -> o_type b = t -> o_size b = r_size it -> lzcnt (o_size b) = l -> 1 <= o_size b ->
  ~ in_slot s (r_arr it) -> 1 <= nth (r_arr it) own 0 ->
  INV (set_list l t {| head := head (tab s l t) + 1; tail := tail (tab s l t); items := upd (items (tab s l t)) k (Some it) |} s) (own_add own (r_arr it) (-1)).
Proof.
  intros I K B T Z0 Lz S1 NI O.
  pose proof (nth_error_lt' _ _ _ B) as L. rewrite <- (i_len s own I) in L.
  assert (KS : (k < SEARCH)%nat) by (rewrite <- (i_four _ _ I l t); eapply nth_error_lt'; eauto).
  assert (IS : forall o, in_slot (set_list l t {| head := head (tab s l t) + 1; tail := tail (tab s l t); items := upd (items (tab s l t)) k (Some it) |} s) o <-> in_slot s o \/ o = r_arr it).
  { intros o; split.
    - intros (l' & t' & k' & it' & A' & <-). destruct (at_set_upd _ _ _ _ _ _ _ _ _ _ _ A') as [(_ & _ & _ & X) | [N X]].
      + inversion X; auto.
      + left. exists l', t', k', it'; auto.
    - intros [(l' & t' & k' & it' & A' & <-) | ->].
      + exists l', t', k', it'. split; auto. apply at_set_other; auto. intros (-> & -> & ->). congruence.
      + exists l, t, k, it. split; auto. eapply at_set_here; eauto. }
  constructor.
  - rewrite own_len. apply (i_len _ _ I).
  - intros p. rewrite own_nth by auto. pose proof (i_own _ _ I p). destruct (Nat.eqb_spec (r_arr it) p); [subst p |]; lia.
  - intros p b' Q. change (nth_error (objs s) p = Some b') in Q. rewrite IS, own_nth by auto.
    destruct (Nat.eqb_spec (r_arr it) p) as [E | N].
    + subst p. destruct (i_refs _ _ I _ _ Q) as [[X Y] | [X Y]]; [now destruct NI |]. left. split; [auto | lia].
    + rewrite Z.add_0_r. destruct (i_refs _ _ I _ _ Q) as [[X Y] | [X Y]]; [left | right]; (split; [| exact Y]); [auto |].
      intros [W | W]; [auto | congruence].
  - intros p b' Q. apply (i_dom _ _ I p b' Q).
  - intros l' t'. rewrite tab_set. destruct (_ && _); cbn [items]; rewrite ?length_upd; apply (i_four _ _ I).
  - intros l' t'. rewrite tab_set. destruct ((l' =? l) && (t' =? t)); [| apply (i_used _ _ I)].
    cbn [head tail items]. pose proof (i_used _ _ I l t) as U. unfold used in *.
    pose proof (countb_upd (fun x : option ritem => match x with Some _ => true | None => false end) _ k (Some it) _ K) as W. cbn beta iota in W. lia.
  - intros l' t' k' it' A'. destruct (at_set_upd _ _ _ _ _ _ _ _ _ _ _ A') as [(-> & -> & -> & X) | [N X]]; [| exact (i_item _ _ I _ _ _ _ X)].
    inversion X; subst it'. exists b. auto.
  - intros l' t' k1 it1 k2 it2 A1 A2 E. destruct (at_set_upd _ _ _ _ _ _ _ _ _ _ _ A1) as [(-> & -> & -> & Y1) | [_ X1]], (at_set_upd _ _ _ _ _ _ _ _ _ _ _ A2) as [(E1 & E2 & E3 & Y2) | [_ X2]].
    + auto.
    + inversion Y1; subst it1. exfalso. apply NI. exists l, t, k2, it2. auto.
    + inversion Y2; subst it2 k2 l' t'. exfalso. apply NI. exists l, t, k1, it1. auto.
    + eapply (i_one _ _ I); eauto.
Qed.

(** ** Releasing and keeping *)
Lemma add_ref_some o d s b : nth_error (objs s) o = Some b -> 0 < o_refs b -> exists s', add_ref o d s = Some s'.
Proof. intros B R. unfold add_ref. rewrite B. apply Z.ltb_lt in R. rewrite R. eauto. Qed.
Lemma add_ref_tab o d s s' : add_ref o d s = Some s' -> tab s' = tab s.
Proof. unfold add_ref. destruct (nth_error _ _); [| discriminate]. destruct (0 <? _); [| discriminate]. intros E; inversion E; reflexivity. Qed.
Lemma add_ref_shape o d s s' p b : add_ref o d s = Some s' -> nth_error (objs s) p = Some b ->
  exists b', nth_error (objs s') p = Some b' /\ o_type b' = o_type b /\ o_size b' = o_size b /\ o_mem b' = o_mem b.
Proof.
  unfold add_ref. destruct (nth_error (objs s) o) as [c |] eqn:C; [| discriminate]. destruct (0 <? _); [| discriminate]. intros E Q; inversion E; subst; cbn [objs].
  destruct (Nat.eq_dec o p) as [<- | N].
  - rewrite nth_error_upd_eq by (eapply nth_error_lt'; eauto). eexists; split; [reflexivity |]. assert (c = b) by congruence. subst; auto.
  - rewrite nth_error_upd_neq by auto. exists b; auto.
Qed.

Lemma release_ok s own l t k it : INV s own -> at_slot s l t k it ->
  exists s', release l t k s = Some s' /\ INV s' own /\ tab s' = tab (RemoveFromList l t k s) /\ (forall o, in_slot s' o <-> in_slot s o /\ o <> r_arr it) /\
    forall p b, nth_error (objs s) p = Some b -> exists b', nth_error (objs s') p = Some b' /\ o_type b' = o_type b /\ o_size b' = o_size b /\ o_mem b' = o_mem b.
Proof.
  intros I A. pose proof (take_ok _ _ _ _ _ _ I A) as T. unfold release. unfold at_slot in A; rewrite A.
  destruct (i_item _ _ I _ _ _ _ A) as (b & B & _). pose proof (nth_error_lt' _ _ _ B) as L. rewrite <- (i_len s own I) in L.
  destruct (add_ref_some (r_arr it) (-1) (RemoveFromList l t k s) b B) as [s' E].
  { destruct (i_refs _ _ I _ _ B) as [[_ X] | [X _]]; [pose proof (i_own _ _ I (r_arr it)); lia |]. exfalso; apply X. exists l, t, k, it; auto. }
  exists s'. split; [exact E |]. pose proof (add_ref_tab _ _ _ _ E) as TB. sp.
  - rewrite <- (own_cancel own (r_arr it) 1 (-1)) by lia. eapply add_ref_ok; eauto.
    rewrite own_nth, Nat.eqb_refl by auto. pose proof (i_own _ _ I (r_arr it)); lia.
  - exact TB.
  - unfold in_slot in H. rewrite TB in H. now apply (remove_slot s own l t k it) in H.
  - unfold in_slot in H. rewrite TB in H. now apply (remove_slot s own l t k it) in H.
  - intros H. unfold in_slot. rewrite TB. now apply (remove_slot s own l t k it).
  - intros p b0 Q. exact (add_ref_shape _ _ _ _ _ _ E Q).
Qed.

Lemma keep_ok s own l t k it b : INV s own -> nth_error (items (tab s l t)) k = Some None -> nth_error (objs s) (r_arr it) = Some b -> o_type b = t -> o_size b = r_size it -> lzcnt (o_size b) = l -> 1 <= o_size b ->
  ~ in_slot s (r_arr it) -> 1 <= nth (r_arr it) own 0 ->
  exists s', keep l t k it s = Some s' /\ INV s' own /\ in_slot s' (r_arr it).
Proof.
  intros I K B T Z0 Lz S1 NI O. pose proof (put_ok s own l t k it b I K B T Z0 Lz S1 NI O) as P. unfold keep.
  pose proof (nth_error_lt' _ _ _ B) as L. rewrite <- (i_len s own I) in L.
  match type of P with INV ?x _ => destruct (add_ref_some (r_arr it) 1 x b B) as [s' E] end.
  { destruct (i_refs _ _ I _ _ B) as [[_ X] | [_ X]]; lia. }
  exists s'. split; [exact E |]. split.
  - rewrite <- (own_cancel own (r_arr it) (-1) 1) by lia. eapply add_ref_ok; eauto. rewrite own_nth, Nat.eqb_refl by auto. lia.
  - exists l, t, k, it. split; auto. rewrite (add_ref_tab _ _ _ _ E).
    assert (KS : (k < SEARCH)%nat) by (rewrite <- (i_four _ _ I l t); eapply nth_error_lt'; eauto).
    exact (at_set_here s own l t k it _ _ I KS).
Qed.

(** ** Garbage collection *)
Lemma same_shape_refl s : same_shape s s. Proof. intros p b Q; exists b; auto. Qed.
Lemma same_shape_trans a b c : same_shape a b -> same_shape b c -> same_shape a c.
Proof. intros X Y p q Q. destruct (X p q Q) as (q1 & Q1 & ? & ? & ?), (Y p q1 Q1) as (q2 & Q2 & ? & ? & ?). exists q2. sp; auto; congruence. Qed.
(** what is left after a collection of some places *)
Definition collected (old : Z -> bool) (P : Z -> Z -> nat -> Prop) (s s' : rstate) : Prop :=
  forall l t k it, at_slot s' l t k it <-> at_slot s l t k it /\ (P l t k -> old (r_tsc it) = false).

Lemma remove_at s own l t k it l' t' k' it' s' : INV s own -> at_slot s l t k it -> tab s' = tab (RemoveFromList l t k s) ->
  at_slot s' l' t' k' it' <-> at_slot s l' t' k' it' /\ ~ (l' = l /\ t' = t /\ k' = k).
Proof.
  intros I A TB. unfold at_slot at 1. rewrite TB. split.
  - intros X. destruct (at_set_upd _ _ _ _ _ _ _ _ _ _ _ X) as [(_ & _ & _ & Y) | [N Y]]; [discriminate | auto].
  - intros [X N]. now apply at_set_other.
Qed.
Lemma collect_slot_ok old s own l t k : INV s own ->
  exists s', collect_slot old l t k s = Some s' /\ INV s' own /\ same_shape s s' /\ collected old (fun l' t' k' => l' = l /\ t' = t /\ k' = k) s s'.
Proof.
  intros I. unfold collect_slot. destruct (nth_error (items (tab s l t)) k) as [[it |] |] eqn:A.
  - destruct (old (r_tsc it)) eqn:O.
    + destruct (release_ok s own l t k it I A) as (s' & E & I' & TB & _ & SH). exists s'. sp; auto.
      * now apply (remove_at s own l t k it _ _ _ _ s' I A TB) in H.
      * intros (-> & -> & ->). apply (remove_at s own l t k it _ _ _ _ s' I A TB) in H. tauto.
      * intros [X Y]. apply (remove_at s own l t k it _ _ _ _ s' I A TB). split; auto. intros (-> & -> & ->). unfold at_slot in X. rewrite A in X. inversion X; subst. specialize (Y ltac:(auto)). congruence.
    + exists s. sp; auto using same_shape_refl; try tauto. intros (-> & -> & ->). unfold at_slot in H. congruence.
  - exists s. sp; auto using same_shape_refl; try tauto. intros (-> & -> & ->). unfold at_slot in H. congruence.
  - exists s. sp; auto using same_shape_refl; try tauto. intros (-> & -> & ->). unfold at_slot in H. congruence.
Qed.
Lemma collected_trans old P Q a b c : collected old P a b -> collected old Q b c -> collected old (fun l t k => P l t k \/ Q l t k) a c.
Proof. intros X Y l t k it. rewrite (Y l t k it), (X l t k it). tauto. Qed.
Lemma collected_ext old P Q a b : (forall l t k it, at_slot a l t k it -> (P l t k <-> Q l t k)) -> collected old P a b -> collected old Q a b.
Proof. intros E X l t k it. rewrite (X l t k it). split; intros [A B]; split; auto; intros W; apply B; apply (E l t k it A); auto. Qed.
Lemma collect_slots_ok old l t ks : forall s own, INV s own ->
  exists s', collect_slots old l t ks s = Some s' /\ INV s' own /\ same_shape s s' /\ collected old (fun l' t' k' => l' = l /\ t' = t /\ In k' ks) s s'.
Proof.
  induction ks as [| k ks IH]; intros s own I; cbn [collect_slots].
  - exists s. sp; auto using same_shape_refl; cbn; tauto.
  - destruct (collect_slot_ok old s own l t k I) as (s1 & -> & I1 & S1 & C1). destruct (IH s1 own I1) as (s2 & -> & I2 & S2 & C2).
    exists s2. sp; eauto using same_shape_trans.
    + apply (collected_trans _ _ _ _ _ _ C1 C2) in H. tauto.
    + pose proof (collected_trans _ _ _ _ _ _ C1 C2) as C. apply C in H. destruct H as [_ H]. intros (-> & -> & [-> | W]); apply H; auto.
    + intros [X Y]. apply (collected_trans _ _ _ _ _ _ C1 C2). split; auto. intros [(-> & -> & ->) | (-> & -> & W)]; apply Y; cbn; auto.
Qed.
Lemma collect_list_ok old s own l t : INV s own ->
  exists s', collect_list old l t s = Some s' /\ INV s' own /\ same_shape s s' /\ collected old (fun l' t' k' => l' = l /\ t' = t) s s'.
Proof.
  intros I. unfold collect_list. destruct (Z.eqb_spec (head (tab s l t)) (tail (tab s l t))) as [E | E].
  - exists s. sp; auto using same_shape_refl; try tauto. intros (-> & ->). exfalso.
    pose proof (i_used _ _ I l t) as U. unfold used in U. assert (countb (fun x : option ritem => match x with Some _ => true | None => false end) (items (tab s l t)) = 0)%nat as W by lia.
    rewrite countb_zero in W. specialize (W k (Some it) H). discriminate.
  - destruct (collect_slots_ok old l t (seq 0 SEARCH) s own I) as (s' & E' & I' & S' & C'). exists s'. sp; auto.
    + now apply C'.
    + intros (-> & ->). apply C' in H as H'. destruct H' as [H1 H2]. apply H2. sp; auto. apply in_seq. cbn [Nat.add].
      split; [lia |]. rewrite <- (i_four _ _ I l t). eapply nth_error_lt'. exact H1.
    + intros [X Y]. apply C'. split; auto. intros (-> & -> & _). apply Y; auto.
Qed.
Lemma collect_lists_ok old lts : forall s own, INV s own ->
  exists s', collect_lists old lts s = Some s' /\ INV s' own /\ same_shape s s' /\ collected old (fun l t k => In (l, t) lts) s s'.
Proof.
  induction lts as [| [l t] lts IH]; intros s own I; cbn [collect_lists].
  - exists s. sp; auto using same_shape_refl; cbn; tauto.
  - destruct (collect_list_ok old s own l t I) as (s1 & -> & I1 & S1 & C1). destruct (IH s1 own I1) as (s2 & -> & I2 & S2 & C2).
    exists s2. split; auto. split; auto. split; eauto using same_shape_trans.
    eapply collected_ext; [| exact (collected_trans _ _ _ _ _ _ C1 C2)]. cbn beta. intros l' t' k it _. cbn [In]. split.
    + intros [[-> ->] | W]; auto.
    + intros [W | W]; auto. inversion W; auto.
Qed.
Lemma in_all_lists l t : 0 <= l < 64 -> 0 <= t < TYPES -> In (l, t) all_lists.
Proof.
  intros L T. unfold all_lists. apply in_flat_map. exists (Z.to_nat l). split; [apply in_seq; lia |].
  apply in_map_iff. exists (Z.to_nat t). split; [f_equal; lia |]. apply in_seq. lia.
Qed.
Lemma lzcnt_range n : 1 <= n < 2 ^ 63 -> 0 <= lzcnt n < 64.
Proof.
  intros N. unfold lzcnt. pose proof (Z.log2_nonneg n). assert (Z.log2 n < 63) by (apply Z.log2_lt_pow2; lia). lia.
Qed.
(** ** Finding and finalizing *)
Lemma slot_from_some f l : forall k j, slot_from f l k = Some j -> exists i x, j = (k + i)%nat /\ nth_error l i = Some x /\ f x = true.
Proof.
  induction l as [| x l IH]; intros k j; cbn [slot_from]; [discriminate |]. destruct (f x) eqn:F.
  - intros E; inversion E; subst j. exists 0%nat, x. sp; auto; lia.
  - intros E. destruct (IH _ _ E) as (i & y & -> & ? & ?). exists (S i), y. sp; auto; lia.
Qed.
Lemma slot_from_none f l : forall k, slot_from f l k = None -> forall i x, nth_error l i = Some x -> f x = false.
Proof.
  induction l as [| y l IH]; intros k; cbn [slot_from]; intros E i x X; [destruct i; discriminate |]. destruct (f y) eqn:F; [discriminate |].
  destruct i; [inversion X; subst; auto | eapply IH; eauto].
Qed.
Lemma first_slot_some f l j : first_slot f l = Some j -> exists x, nth_error l j = Some x /\ f x = true.
Proof. intros E. destruct (slot_from_some _ _ _ _ E) as (i & x & -> & ? & ?). eauto. Qed.

Lemma refs_of_eq s o b : nth_error (objs s) o = Some b -> refs_of s o = o_refs b.
Proof. intros E; unfold refs_of; now rewrite E. Qed.

Lemma find_ok s own ndim type size : INV s own -> 0 <= type ->
  exists r s', RecycleFindArray ndim type size s = Some (r, s') /\
    match r with
    | None => s' = s
    | Some o => INV s' (own_add own o 1) /\ nth o own 0 = 0 /\ in_slot s o /\ ~ in_slot s' o /\ ndim = 1 /\
                exists b, nth_error (objs s') o = Some b /\ o_type b = type /\ o_size b = size /\ o_refs b = 1
    end.
Proof.
  intros I T. unfold RecycleFindArray. destruct ((MIN_SIZE <=? size) && (type <? TYPES) && (ndim =? 1)) eqn:G; [| exists None, s; auto].
  apply andb_prop in G; destruct G as [G G3]; apply andb_prop in G; destruct G as [G1 G2].
  destruct (Z.ltb_spec type 0); [lia |].
  destruct (first_slot _ _) as [k |] eqn:F; [| exists None, s; auto].
  destruct (first_slot_some _ _ _ F) as (x & X & FX). rewrite X. destruct x as [it |]; [| discriminate].
  apply andb_prop in FX; destruct FX as [F1 F2]. apply Z.eqb_eq in F1, F2, G3.
  exists (Some (r_arr it)), (RemoveFromList (lzcnt size) type k s). split; auto.
  assert (IS : in_slot s (r_arr it)) by (exists (lzcnt size), type, k, it; auto).
  destruct (i_item _ _ I _ _ _ _ X) as (b & B & Tb & Sb & _). rewrite (refs_of_eq _ _ _ B) in F2.
  sp.
  - exact (take_ok _ _ _ _ _ _ I X).
  - destruct (i_refs _ _ I _ _ B) as [[_ Y] | [Y _]]; [lia | tauto].
  - exact IS.
  - intros W. apply (remove_slot s own _ _ _ it) in W; auto. now destruct W.
  - exact G3.
  - exists b. sp; auto; congruence.
Qed.

(* the four slots of a list all hold an array *)
Lemma no_empty s own l t : INV s own -> first_slot (fun x : option ritem => match x with None => true | _ => false end) (items (tab s l t)) = None ->
  forall k, (k < SEARCH)%nat -> exists it, at_slot s l t k it.
Proof.
  intros I F k K. rewrite <- (i_four _ _ I l t) in K. destruct (nth_error (items (tab s l t)) k) as [[it |] |] eqn:X.
  - exists it. exact X.
  - pose proof (slot_from_none _ _ _ F _ _ X). discriminate.
  - apply nth_error_None in X. lia.
Qed.

Lemma finalize_ok s own o tsc gc b : INV s own -> nth_error (objs s) o = Some b -> 1 <= nth o own 0 ->
  exists r s', FinalizeNumpyArray o tsc gc s = Some (r, s') /\ INV s' own /\ (r = true -> gc = None -> in_slot s' o).
Proof.
  intros I B O. unfold FinalizeNumpyArray. rewrite B. destruct (Z.eqb_spec (o_refs b) 1) as [R | R]; cbn [negb]; [| exists false, s; sp; auto; discriminate].
  set (finish := fun (r : bool) (s : rstate) => match gc with Some old => match GarbageCollect old s with Some s' => Some (r, s') | None => None end | None => Some (r, s) end).
  assert (FIN : forall r s1, INV s1 own -> exists r' s', finish r s1 = Some (r', s') /\ INV s' own /\ (gc = None -> s' = s1 /\ r' = r)).
  { intros r s1 I1. unfold finish. destruct gc as [old |]; [| exists r, s1; auto].
    destruct (collect_lists_ok old all_lists s1 own I1) as (s' & E & I' & _). unfold GarbageCollect. rewrite E. exists r, s'. sp; auto; discriminate. }
  assert (BAD : exists r s', finish false s = Some (r, s') /\ INV s' own /\ (r = true -> gc = None -> in_slot s' o)).
  { destruct (FIN false s I) as (r & s' & E & I' & N). exists r, s'. sp; auto. intros -> G. destruct (N G); discriminate. }
  destruct ((MIN_SIZE <=? o_size b) && (o_type b <? TYPES)) eqn:G; [| exact BAD].
  apply andb_prop in G; destruct G as [G1 G2]. unfold MIN_SIZE in G1. apply Z.leb_le in G1.
  assert (NI : ~ in_slot s o) by (destruct (i_refs _ _ I _ _ B) as [[_ Y] | [Y _]]; [lia | auto]).
  destruct (existsb _ _); [exact BAD |].
  assert (GOOD : forall k s1, INV s1 own -> same_shape s s1 -> (in_slot s1 o -> in_slot s o) -> nth_error (items (tab s1 (lzcnt (o_size b)) (o_type b))) k = Some None ->
    exists r s', match keep (lzcnt (o_size b)) (o_type b) k {| r_size := o_size b; r_arr := o; r_mem := o_mem b; r_tsc := tsc |} s1 with Some s' => finish true s' | None => None end = Some (r, s') /\ INV s' own /\ (r = true -> gc = None -> in_slot s' o)).
  { intros k s1 I1 SH NI1 K. destruct (SH o b B) as (b1 & B1 & T1 & S1 & _).
    destruct (keep_ok s1 own (lzcnt (o_size b)) (o_type b) k {| r_size := o_size b; r_arr := o; r_mem := o_mem b; r_tsc := tsc |} b1) as (s2 & E2 & I2 & IN2); auto; cbn [r_arr r_size]; rewrite ?S1, ?T1; auto.
    rewrite E2. destruct (FIN true s2 I2) as (r & s' & E & I' & N). exists r, s'. sp; auto. intros _ G. destruct (N G) as [-> _]. exact IN2. }
  destruct (first_slot (fun x : option ritem => match x with None => true | _ => false end) _) as [k |] eqn:F.
  - destruct (first_slot_some _ _ _ F) as ([it |] & X & FX); [discriminate |]. apply GOOD; auto using same_shape_refl.
  - match goal with |- context [release _ _ ?k s] => set (k0 := k) end.
    assert (K0 : (k0 < SEARCH)%nat).
    { clear F. unfold k0. destruct (first_slot _ _) as [k |] eqn:F2.
      - destruct (first_slot_some _ _ _ F2) as (x & X & _). apply nth_error_lt' in X. now rewrite (i_four _ _ I) in X.
      - change 3 with (Z.ones 2). rewrite Z.land_ones by lia. pose proof (Z.mod_pos_bound (head (tab s (lzcnt (o_size b)) (o_type b))) (2 ^ 2) ltac:(lia)). unfold SEARCH. change (2 ^ 2) with 4 in *. lia. }
    destruct (no_empty s own _ _ I F k0 K0) as [it A].
    destruct (release_ok s own _ _ _ _ I A) as (s1 & E1 & I1 & TB & IS1 & SH). rewrite E1. apply GOOD; auto.
    + intros W. now apply IS1 in W.
    + rewrite TB. unfold RemoveFromList. rewrite tab_set, !Z.eqb_refl. cbn [andb items]. apply nth_error_upd_eq. now rewrite (i_four _ _ I).
Qed.

(** ** Every step *)
Lemma inv_init : INV rinit [].
Proof.
  assert (N : forall l t k it, ~ at_slot rinit l t k it).
  { intros l t k it A. unfold at_slot, rinit in A; cbn [tab items] in A. apply nth_error_In in A. apply repeat_spec in A. discriminate. }
  constructor; cbn [objs rinit]; auto.
  - intros [| o]; cbn; lia.
  - intros [| o] b Q; discriminate.
  - intros [| o] b Q; discriminate.
  - intros l t k it A. now apply N in A.
  - intros l t k it k' it' A. now apply N in A.
Qed.
Lemma new_ok s own type size mem : INV s own -> 0 <= type -> 0 <= size < 2 ^ 63 ->
  INV {| tab := tab s; objs := objs s ++ [{| o_type := type; o_size := size; o_mem := mem; o_refs := 1 |}] |} (own ++ [1]).
Proof.
  intros I T Z0.
  assert (C : forall p b, nth_error (objs s ++ [{| o_type := type; o_size := size; o_mem := mem; o_refs := 1 |}]) p = Some b ->
     (nth_error (objs s) p = Some b /\ (p < length own)%nat) \/ (p = length own /\ b = {| o_type := type; o_size := size; o_mem := mem; o_refs := 1 |})).
  { intros p b Q. rewrite (i_len _ _ I). destruct (Nat.lt_ge_cases p (length (objs s))) as [L | L].
    - rewrite nth_error_app1 in Q by auto. auto.
    - rewrite nth_error_app2 in Q by auto. right. destruct (p - length (objs s))%nat as [| [|]] eqn:E; cbn in Q; try discriminate. inversion Q. split; [lia | auto]. }
  constructor; cbn [tab objs].
  - rewrite !app_length, (i_len _ _ I). reflexivity.
  - intros p. destruct (Nat.lt_ge_cases p (length own)) as [L | L].
    + rewrite app_nth1 by auto. apply (i_own _ _ I).
    + rewrite app_nth2 by auto. destruct (p - length own)%nat as [| [|]]; cbn; lia.
  - intros p b Q. destruct (C p b Q) as [[Q0 L] | [-> ->]].
    + rewrite app_nth1 by auto. exact (i_refs _ _ I p b Q0).
    + right. rewrite app_nth2, Nat.sub_diag by auto. split; [| reflexivity].
      intros (l & t & k & it & A & E). destruct (i_item _ _ I l t k it A) as (b & B & _). apply nth_error_lt' in B. rewrite <- (i_len _ _ I) in B. lia.
  - intros p b Q. destruct (C p b Q) as [[Q0 L] | [-> ->]]; [exact (i_dom _ _ I p b Q0) | cbn; auto].
  - apply (i_four _ _ I).
  - apply (i_used _ _ I).
  - intros l t k it A. destruct (i_item _ _ I l t k it A) as (b & B & R). exists b. split; auto. rewrite nth_error_app1; auto. eapply nth_error_lt'; eauto.
  - exact (i_one _ _ I).
Qed.
Lemma step_ok op s own : INV s own -> rallowed op s own -> exists s' own', rstep op s own = Some (s', own') /\ INV s' own'.
Proof.
  intros I A.
  assert (DROP : forall o b s1, INV s1 own -> nth_error (objs s1) o = Some b -> 0 < nth o own 0 ->
    exists s' own', match add_ref o (-1) s1 with Some s' => Some (s', own_add own o (-1)) | None => None end = Some (s', own') /\ INV s' own').
  { intros o b s1 I1 B P. destruct (add_ref_some o (-1) s1 b B) as [s' E]; [destruct (i_refs _ _ I1 _ _ B) as [[_ Y] | [_ Y]]; lia |].
    rewrite E. eexists _, _; split; [reflexivity |]. eapply add_ref_ok; eauto; lia. }
  destruct op as [type size mem | o | o rec tsc gc | ndim type size | old]; cbn [rstep rallowed] in *.
  - eexists _, _; split; [reflexivity |]. apply new_ok; tauto.
  - unfold refs_of in A. destruct (nth_error (objs s) o) as [b |] eqn:B; [| lia]. destruct (add_ref_some o 1 s b B A) as [s' E]. rewrite E.
    eexists _, _; split; [reflexivity |]. eapply add_ref_ok; eauto. pose proof (i_own _ _ I o); lia.
  - assert (exists b, nth_error (objs s) o = Some b) as [b B].
    { destruct (nth_error (objs s) o) as [b |] eqn:B; [eauto |]. apply nth_error_None in B. rewrite <- (i_len _ _ I) in B. rewrite nth_overflow in A by auto. lia. }
    destruct ((refs_of s o =? 1) && rec); [| eapply DROP; eauto].
    destruct (finalize_ok s own o tsc gc b I B ltac:(lia)) as (r & s1 & E & I1 & _). rewrite E.
    destruct (nth_error (objs s1) o) as [b1 |] eqn:B1; [eapply DROP; eauto |].
    apply nth_error_None in B1. rewrite <- (i_len _ _ I1) in B1. rewrite nth_overflow in A by auto. lia.
  - destruct (find_ok s own ndim type size I A) as ([o |] & s' & E & H); rewrite E.
    + eexists _, _; split; [reflexivity |]. now destruct H.
    + subst s'. eauto.
  - destruct (collect_lists_ok old all_lists s own I) as (s' & E & I' & _). unfold GarbageCollect. rewrite E. eauto.
Qed.
Lemma reached_inv s own : rreached s own -> INV s own.
Proof.
  induction 1 as [| op s own s' own' _ I A E]; [apply inv_init |]. destruct (step_ok op s own I A) as (s1 & own1 & E1 & I1). rewrite E in E1. inversion E1; subst; auto.
Qed.

(** ** The properties *)
Lemma find_spec s own ndim type size o s' : rreached s own -> 0 <= type -> RecycleFindArray ndim type size s = Some (Some o, s') ->
  ndim = 1 /\ nth o own 0 = 0 /\ in_slot s o /\ ~ in_slot s' o /\ exists b, nth_error (objs s') o = Some b /\ o_type b = type /\ o_size b = size /\ o_refs b = 1.
Proof.
  intros R T E. apply reached_inv in R. destruct (find_ok s own ndim type size R T) as (r & s1 & E1 & H). rewrite E in E1. inversion E1; subst. tauto.
Qed.
Lemma counts_spec s own o b : rreached s own -> nth_error (objs s) o = Some b ->
  0 <= nth o own 0 /\ ((in_slot s o /\ o_refs b = nth o own 0 + 1) \/ (~ in_slot s o /\ o_refs b = nth o own 0)).
Proof. intros R B. apply reached_inv in R. split; [apply (i_own _ _ R) | exact (i_refs _ _ R o b B)]. Qed.
Lemma safe_spec s own op : rreached s own -> rallowed op s own -> exists s' own', rstep op s own = Some (s', own').
Proof. intros R A. apply reached_inv in R. destruct (step_ok op s own R A) as (s' & own' & E & _). eauto. Qed.
Lemma room_spec s own l t : rreached s own -> length (items (tab s l t)) = SEARCH /\ head (tab s l t) - tail (tab s l t) = used (items (tab s l t)) /\ 0 <= used (items (tab s l t)) <= 4.
Proof.
  intros R. apply reached_inv in R. split; [apply (i_four _ _ R) |]. split; [apply (i_used _ _ R) |]. unfold used.
  pose proof (countb_le_length (fun x : option ritem => match x with Some _ => true | None => false end) (items (tab s l t))). rewrite (i_four _ _ R) in H. unfold SEARCH in H. lia.
Qed.
Lemma collect_spec old s own s' : rreached s own -> GarbageCollect old s = Some s' ->
  (forall l t k it, 0 <= l < 64 -> 0 <= t < TYPES ->
    (nth_error (items (tab s' l t)) k = Some (Some it) <-> nth_error (items (tab s l t)) k = Some (Some it) /\ old (r_tsc it) = false)).
Proof.
  intros R E l t k it L T. apply reached_inv in R. destruct (collect_lists_ok old all_lists s own R) as (s1 & E1 & _ & _ & C). unfold GarbageCollect in E. rewrite E in E1. inversion E1; subst s1.
  specialize (C l t k it). unfold at_slot in C. rewrite C. pose proof (in_all_lists l t L T). tauto.
Qed.
Lemma stored_spec s own l t k it : rreached s own -> nth_error (items (tab s l t)) k = Some (Some it) ->
  exists b, nth_error (objs s) (r_arr it) = Some b /\ o_type b = t /\ o_size b = r_size it /\ lzcnt (o_size b) = l /\ 1 <= o_size b.
Proof. intros R A. apply reached_inv in R. exact (i_item _ _ R _ _ _ _ A). Qed.
Lemma freed_or_kept s own o tsc s' own' : rreached s own -> nth o own 0 = 1 -> rstep (RDrop o true tsc None) s own = Some (s', own') ->
  (refs_of s' o = 0 /\ ~ in_slot s' o) \/ (refs_of s' o = 1 /\ in_slot s' o).
Proof.
  intros R O E. assert (A : rallowed (RDrop o true tsc None) s own) by (cbn; lia).
  assert (R' : rreached s' own') by (eapply rreached_step; eauto).
  assert (W : own' = own_add own o (-1)).
  { cbn [rstep] in E. destruct (_ && _).
    - destruct (FinalizeNumpyArray _ _ _ _) as [[? ?] |]; [| discriminate]. destruct (add_ref _ _ _); [| discriminate]. now inversion E.
    - destruct (add_ref _ _ _); [| discriminate]. now inversion E. }
  subst own'. assert (L : (o < length own)%nat). { destruct (Nat.lt_ge_cases o (length own)) as [Q | Q]; auto. rewrite nth_overflow in O by auto. lia. }
  destruct (nth_error (objs s') o) as [b |] eqn:B.
  - destruct (counts_spec _ _ o b R' B) as [_ C]. rewrite own_nth, Nat.eqb_refl in C by auto. rewrite (refs_of_eq _ _ _ B). destruct C as [[? ?] | [? ?]]; [right | left]; split; auto; lia.
  - apply nth_error_None in B. apply reached_inv in R'. rewrite <- (i_len _ _ R'), own_len in B. lia.
Qed.
