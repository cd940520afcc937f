(** Proofs about membership. *)
From Verif Require Import Base Mem MemLemmas Par HashModel HashTable HashSpec.
Local Open Scope Z_scope.

(** ** Outcomes *)

Lemma okt_bind {A B} T (Q : A -> Prop) (R : B -> Prop) e f : okt T Q e -> (forall a, Q a -> okt T R (f a)) -> okt T R (obind e f).
Proof. destruct e; simpl; auto. Qed.

Lemma okt_weaken {A} (T T' : Prop) (Q Q' : A -> Prop) e : okt T Q e -> (T -> T') -> (forall a, Q a -> Q' a) -> okt T' Q' e.
Proof. destruct e; simpl; auto. Qed.

Lemma okt_ret {A} T (Q : A -> Prop) e : okt T Q e -> ~ T -> exists a, e = Ret a /\ Q a.
Proof. destruct e; simpl; [eauto|tauto|tauto]. Qed.

Lemma all_ret_ok {A B} T (Q : A -> B -> Prop) (f : A -> out B) l :
  (forall x, In x l -> okt T (Q x) (f x)) -> okt T (Forall2 Q l) (all_ret (map f l)).
Proof.
  induction l as [|x l IH]; cbn [map all_ret]; intros H.
  - constructor.
  - eapply okt_bind; [apply H; now left|]. intros y Hy.
    eapply okt_bind; [apply IH; intros; apply H; now right|]. intros ys Hys. cbn. constructor; auto.
Qed.

Lemma Forall2_nth {A B} (Q : A -> B -> Prop) l r : Forall2 Q l r -> forall i x y, nth_error l i = Some x -> nth_error r i = Some y -> Q x y.
Proof. induction 1; intros [|i]; simpl; intros; try discriminate; [congruence|eauto]. Qed.

Lemma Forall2_len {A B} (Q : A -> B -> Prop) l r : Forall2 Q l r -> length l = length r.
Proof. induction 1; simpl; auto. Qed.

Lemma skipn_tl {A} (l : list A) : forall i x r, skipn i l = x :: r -> skipn (S i) l = r.
Proof. induction l as [|a l IH]; intros [|i] x r; cbn [skipn]; intros E; try discriminate; [congruence|]. eapply IH; eauto. Qed.

Lemma Forall2_intro {A B} (Q : A -> B -> Prop) l : forall r, length l = length r ->
  (forall i x y, nth_error l i = Some x -> nth_error r i = Some y -> Q x y) -> Forall2 Q l r.
Proof.
  induction l as [|x l IH]; intros [|y r]; simpl; intros L H; try discriminate; constructor.
  - now apply (H 0%nat).
  - apply IH; [lia|]. intros i. apply (H (S i)).
Qed.

Lemma lookup_rows_ok {A B} T (Q : A -> B -> Prop) ord thr c (f : A -> out B) rows d : fair ord -> (0 < c)%nat ->
  (forall x, In x rows -> okt T (Q x) (f x)) -> okt T (Forall2 Q rows) (lookup_rows ord thr c f rows d).
Proof.
  intros Ho Hc H. unfold lookup_rows. rewrite chunk_calls_map by auto.
  eapply okt_bind.
  - apply (all_ret_ok T (fun i w => fst w = Z.of_nat i /\ exists x, nth_error rows i = Some x /\ Q x (snd w))).
    intros i Hi. apply in_seq in Hi. destruct (nth_error_lt rows i) as (x & Ex); [lia|].
    rewrite Ex. cbn [lift obind]. eapply okt_bind; [apply H; eapply nth_error_In; eauto|].
    intros y Hy. cbn. eauto.
  - intros ws Hws. cbn beta.
    assert (L : length ws = length rows) by (apply Forall2_len in Hws; now rewrite seq_length in Hws).
    assert (Hw : ws = enum 1 0 (map snd ws)).
    { apply list_ext. intros i. destruct (nth_error ws i) as [w|] eqn:Ew.
      - assert (Hi : (i < length rows)%nat) by (rewrite <- L; eapply nth_error_Some_lt; eauto).
        pose proof (Forall2_nth _ _ _ Hws i i w) as X. rewrite nth_error_seq in X.
        destruct (Nat.ltb_spec i (length rows)); [|lia]. destruct (X eq_refl Ew) as (E1 & _).
        assert (G : forall (l : list (Z * B)) o k v, nth_error l k = Some v -> nth_error (enum 1 o (map snd l)) k = Some (o + Z.of_nat k, snd v)).
        { clear. induction l as [|a l IH]; intros o [|k] v; simpl; intros E; try discriminate.
          - inversion E; subst. f_equal. f_equal. lia.
          - rewrite (IH _ _ _ E). f_equal. f_equal. lia. }
        rewrite (G ws 0 i w Ew). rewrite Z.add_0_l, <- E1. now destruct w.
      - symmetry. apply nth_error_None. rewrite enum_length, map_length. now apply nth_error_None. }
    rewrite (writes_enum _ (map snd ws)).
    + cbn. apply Forall2_intro; [rewrite map_length; lia|].
      intros i x y Ex Ey. rewrite nth_error_map in Ey. destruct (nth_error ws i) as [w|] eqn:Ew; inversion Ey; subst.
      pose proof (Forall2_nth _ _ _ Hws i i w) as X. rewrite nth_error_seq in X.
      destruct (Nat.ltb_spec i (length rows)).
      * destruct (X eq_refl Ew) as (_ & x' & Ex' & Hq). congruence.
      * apply nth_error_Some_lt in Ex. lia.
    + rewrite <- Hw. apply Ho.
    + rewrite repeat_length, map_length. auto.
Qed.

(** ** Building the table and looking values up *)

Section MakeGet.
  Context {P R2 K : Type}.
  Context (mk : Z -> R2 -> P) (m2 : R2 -> P -> option bool) (H2 : R2 -> Z) (use2 : R2 -> bool).
  Context (key : P -> K) (hk : K -> Z) (k2 : R2 -> K) (rows : list R2) (size : Z).

  Definition used (j : nat) (y : R2) : Prop := nth_error rows j = Some y /\ use2 y = true.

  Context (Hsize : 0 <= size)
          (Hkey : forall j y, used j y -> key (mk (Z.of_nat j) y) = k2 y)
          (HH2 : forall j y, used j y -> H2 y = hk (k2 y) /\ 0 <= H2 y < size)
          (Hm2 : forall i x j y, used i x -> used j y -> exists b, m2 x (mk (Z.of_nat j) y) = Some b /\ (b = true <-> k2 y = k2 x)).

  Definition too_small : Prop := ~ fewer_than size (map k2 (filter use2 rows)).

  Record minv (t : list (option P)) (i : nat) : Prop := {
    mi_len : Z.of_nat (length t) = size;
    mi_inv : tinv key hk t;
    mi_stored : forall p, In p (somes t) -> exists j y, (j < i)%nat /\ used j y /\ p = mk (Z.of_nat j) y /\
                  (forall j' y', (j' < j)%nat -> used j' y' -> k2 y' <> k2 y);
    mi_all : forall j y, (j < i)%nat -> used j y -> exists p, In p (somes t) /\ key p = k2 y
  }.

  Lemma minv_new : minv (new_table size) 0.
  Proof using Hsize Hkey HH2 Hm2.
    split.
    - unfold new_table. rewrite repeat_length. lia.
    - apply tinv_new.
    - intros p Hp. apply in_somes in Hp as (s & Hs). apply zrd_inv in Hs as (_ & Hs). unfold new_table in Hs.
      rewrite nth_error_repeat' in Hs. now destruct (Nat.ltb _ _).
    - intros; lia.
  Qed.

  Lemma used_key j y : used j y -> In (k2 y) (map k2 (filter use2 rows)).
  Proof. intros (Hj & Hu). apply in_map. apply filter_In. split; auto. eapply nth_error_In; eauto. Qed.

  Lemma full_too_small t i : minv t i -> length (somes t) = length t -> too_small.
  Proof using Hsize Hkey HH2 Hm2.
    intros [L I S _] F (U & HU & HL). apply (not_full key hk t U I); auto; [|lia].
    intros p Hp. apply HU. destruct (S p Hp) as (j & y & _ & Hu & -> & _). rewrite Hkey by auto. eapply used_key; eauto.
  Qed.

  Lemma make_step t i x : minv t i -> nth_error rows i = Some x ->
    okt too_small (fun t' => minv t' (S i)) (if use2 x then set_location mk m2 H2 t (Z.of_nat i) x else Ret t).
  Proof using Hsize Hkey HH2 Hm2.
    intros M Ex. destruct (use2 x) eqn:Eu.
    - assert (Ux : used i x) by (split; auto). pose proof M as [L I S A].
      destruct (HH2 i x Ux) as (EH & RH).
      unfold set_location. rewrite EH.
      destruct (probe_inv key hk t (m2 x) (k2 x) I) as (r & -> & F).
      { rewrite <- EH. lia. }
      { intros p Hp. destruct (S p Hp) as (j & y & _ & Hu & -> & _). rewrite Hkey by auto. eauto. }
      cbn [obind]. inversion F as [s p Ho Hp Ek|s Es Nk Ti|Nk Fu]; subst r.
      + (* duplicate *) cbn. split; auto.
        * intros q Hq. destruct (S q Hq) as (j & y & Hj & R). exists j, y. split; auto.
        * intros j y Hj Hu. destruct (Nat.eq_dec j i) as [->|]; [|apply (A j); auto; lia].
          exists p. split; auto. destruct Hu as (Hu & _). destruct Ux as (Hx & _). congruence.
      + cbn. split.
        * now rewrite store_length.
        * apply Ti. now apply Hkey.
        * intros q Hq. apply in_somes_insert in Hq as [-> |Hq]; auto.
          -- exists i, x. repeat split; auto; try lia. intros j' y' Hj' Hu' C.
             destruct (A j' y' Hj' Hu') as (p & Hp & Ep). apply (Nk p Hp). congruence.
          -- destruct (S q Hq) as (j & y & Hj & R). exists j, y. split; auto.
        * intros j y Hj Hu. destruct (Nat.eq_dec j i) as [->|].
          -- assert (y = x) by (destruct Hu; congruence). subst. exists (mk (Z.of_nat i) x). split; auto.
             apply in_somes_insert; auto.
          -- destruct (A j y ltac:(lia) Hu) as (p & Hp & Ep). exists p. split; auto. apply in_somes_insert; auto.
      + cbn. eapply full_too_small; eauto.
    - cbn. destruct M as [L I S A]. split; auto.
      + intros q Hq. destruct (S q Hq) as (j & y & Hj & R). exists j, y. split; auto.
      + intros j y Hj Hu. apply (A j); auto. destruct (Nat.eq_dec j i) as [->|]; [|lia].
        destruct Hu. congruence.
  Qed.

  Lemma make_ok : forall l t i, minv t i -> skipn i rows = l ->
    okt too_small (fun t' => minv t' (length rows)) (make_location mk m2 H2 use2 t (Z.of_nat i) l).
  Proof using Hsize Hkey HH2 Hm2.
    induction l as [|x l IH]; intros t i M E.
    - cbn. assert (length rows <= i)%nat.
      { pose proof (skipn_length i rows) as X. rewrite E in X. simpl in X. lia. }
      destruct M as [L I S A]. split; auto.
      + intros q Hq. destruct (S q Hq) as (j & y & Hj & R). exists j, y. split; auto.
        destruct R as ((R & _) & _). now apply nth_error_Some_lt in R.
      + intros j y Hj Hu. apply (A j); auto. lia.
    - assert (Ex : nth_error rows i = Some x).
      { rewrite <- (Nat.add_0_r i), <- nth_error_skipn, E. reflexivity. }
      cbn [make_location]. eapply okt_bind; [now apply make_step|].
      intros t' M'. replace (Z.of_nat i + 1) with (Z.of_nat (S i)) by lia. apply IH; auto.
      eapply skipn_tl; eauto.
  Qed.

  Lemma make_all : okt too_small (fun t => minv t (length rows)) (make_location mk m2 H2 use2 (new_table size) 0 rows).
  Proof using Hsize Hkey HH2 Hm2. apply (make_ok rows _ 0%nat); auto. apply minv_new. Qed.

  (** lookup of [x] in the finished table *)
  Context {R1 : Type} (m1 : R1 -> P -> option bool) (loc : P -> Z) (H1 : R1 -> Z) (use1 : R1 -> bool) (k1 : R1 -> K).
  Definition eqk (x : R1) (y : R2) : Prop := use1 x = true /\ use2 y = true /\ k2 y = k1 x.

  Context (Hloc : forall j y, loc (mk j y) = j).

  Lemma lookup_ok bad t x : minv t (length rows) ->
    (use1 x = true -> H1 x = hk (k1 x) /\ 0 <= H1 x < size) ->
    (use1 x = true -> forall j y, used j y -> exists b, m1 x (mk (Z.of_nat j) y) = Some b /\ (b = true <-> k2 y = k1 x)) ->
    okt too_small (member_row eqk bad rows x) (get_location m1 loc H1 use1 bad t x) /\
    okt too_small (member_cat_row eqk rows x) (get_location_cat m1 loc H1 use1 t x).
  Proof using Hsize Hkey HH2 Hm2 Hloc.
    intros M HH Hm. unfold get_location, get_location_cat. destruct (use1 x) eqn:Eu.
    - destruct (HH eq_refl) as (EH & RH). specialize (Hm eq_refl). pose proof M as [L I S A].
      rewrite EH. destruct (probe_inv key hk t (m1 x) (k1 x) I) as (r & -> & F).
      { rewrite <- EH. lia. }
      { intros p Hp. destruct (S p Hp) as (j & y & _ & Hu & -> & _). rewrite Hkey by auto. eauto. }
      cbn [obind]. inversion F as [s p Ho Hp Ek|s Es Nk Ti|Nk Fu]; subst r.
      + destruct (S p Hp) as (j & y & _ & Hu & -> & Hf). rewrite Hkey in Ek by auto. rewrite Hloc.
        assert (X : forall j' y', (j' < j)%nat -> nth_error rows j' = Some y' -> ~ eqk x y').
        { intros j' y' Hj' Hy' (_ & U2 & E2). apply (Hf j' y' Hj'); [split; auto|congruence]. }
        destruct Hu as (Hj & Hu). unfold eqk. split; left; exists j, y; auto 10.
      + assert (X : forall y, In y rows -> ~ eqk x y).
        { intros y Hy (_ & U2 & E2). apply In_nth_error in Hy as (j & Hy).
          destruct (A j y) as (p & Hp & Ep); [now apply nth_error_Some_lt in Hy|split; auto|].
          apply (Nk p Hp). congruence. }
        split; right; auto.
      + split; cbn; eapply full_too_small; eauto.
    - assert (X : forall y, In y rows -> ~ eqk x y) by (intros y _ (C & _); congruence).
      split; right; auto.
  Qed.
End MakeGet.

Lemma member_row_iff {A B} (e e' : A -> B -> Prop) bad b x r : (forall y, In y b -> e x y <-> e' x y) ->
  member_row e bad b x r -> member_row e' bad b x r.
Proof.
  intros H [(j & y & Hj & He & Hf & ->)|(Hn & ->)].
  - left. exists j, y. repeat split; auto.
    + apply H; auto. eapply nth_error_In; eauto.
    + intros j' y' L Hj' C. apply (Hf j' y' L Hj'). apply H; auto. eapply nth_error_In; eauto.
  - right. split; auto. intros y Hy C. apply (Hn y Hy). now apply H.
Qed.
Lemma member_cat_row_iff {A B} (e e' : A -> B -> Prop) b x r : (forall y, In y b -> e x y <-> e' x y) ->
  member_cat_row e b x r -> member_cat_row e' b x r.
Proof.
  intros H [(j & y & Hj & He & Hf & ->)|(Hn & ->)].
  - left. exists j, y. repeat split; auto.
    + apply H; auto. eapply nth_error_In; eauto.
    + intros j' y' L Hj' C. apply (Hf j' y' L Hj'). apply H; auto. eapply nth_error_In; eauto.
  - right. split; auto. intros y Hy C. apply (Hn y Hy). now apply H.
Qed.

Lemma Forall2_impl_in {A B} (Q Q' : A -> B -> Prop) l r : (forall x y, In x l -> Q x y -> Q' x y) -> Forall2 Q l r -> Forall2 Q' l r.
Proof. intros H F. induction F; constructor; [apply H; simpl; auto|]. apply IHF. intros; apply H; simpl; auto. Qed.

(** ** Single keys *)
Section SingleKey.
  Context {K C : Type} (keq : K -> K -> bool) (ok : K -> bool) (H : Z -> K -> Z) (canon : K -> C) (hc : C -> Z).
  Context (size : Z) (a b : list K).
  Context (Hsize : 0 <= size)
          (HH : forall x, In x (a ++ b) -> ok x = true -> H size x = hc (canon x) /\ 0 <= H size x < size)
          (Heq : forall x y, In x (a ++ b) -> In y b -> ok x = true -> ok y = true -> (keq y x = true <-> canon y = canon x)).

  Definition sk_small : Prop := ~ fewer_than size (map canon (filter ok b)).
  Definition sk_eqv (x y : K) : Prop := ok x = true /\ ok y = true /\ keq y x = true.

  Notation mk := (fun (i : Z) (x : K) => (x, i)).
  Notation mt := (fun x (p : K * Z) => Some (keq (fst p) x)).
  Notation minv' := (minv mk ok (fun p => canon (fst p)) hc canon b size).

  Lemma sk_HH2 j y : used ok b j y -> H size y = hc (canon y) /\ 0 <= H size y < size.
  Proof. intros (Hj & Hu). apply nth_error_In in Hj. apply HH; auto. apply in_or_app; auto. Qed.

  Lemma sk_Hm2 i x j y : used ok b i x -> used ok b j y -> exists c, mt x (mk (Z.of_nat j) y) = Some c /\ (c = true <-> canon y = canon x).
  Proof. intros (Hi & Hu) (Hj & Hv). exists (keq y x). split; auto. apply nth_error_In in Hi, Hj. apply Heq; auto. apply in_or_app; auto. Qed.

  Lemma sk_make_ok : okt sk_small (fun t => minv' t (length b)) (sk_make keq ok H size b).
  Proof.
    unfold sk_make.
    apply (make_all mk mt (H size) ok (fun p => canon (fst p)) hc canon b size); auto; try exact sk_HH2; try exact sk_Hm2.
  Qed.

  Lemma sk_lookup bad t x : In x a -> minv' t (length b) ->
    okt sk_small (member_row sk_eqv bad b x) (sk_get keq ok H size bad t x) /\
    okt sk_small (member_cat_row sk_eqv b x) (get_location_cat mt snd (H size) ok t x).
  Proof.
    intros Hx M. unfold sk_get.
    assert (Ha : In x (a ++ b)) by (apply in_or_app; auto).
    destruct (lookup_ok mk mt (H size) ok (fun p => canon (fst p)) hc canon b size) with (m1 := mt) (loc := @snd K Z) (H1 := H size) (use1 := ok) (k1 := canon) (bad := bad) (t := t) (x := x) as (A & B); auto; try exact sk_HH2; try exact sk_Hm2.
    - intros Hu j y (Hj & Hv). exists (keq y x). split; auto. apply nth_error_In in Hj. apply Heq; auto.
    - assert (X : forall y, In y b -> eqk ok canon ok canon x y <-> sk_eqv x y).
      { intros y Hy. unfold eqk, sk_eqv. split; intros (U1 & U2 & U3); repeat split; auto; apply Heq; auto. }
      split.
      + eapply okt_weaken; [exact A|auto|]. intros r. now apply member_row_iff.
      + eapply okt_weaken; [exact B|auto|]. intros r. now apply member_cat_row_iff.
  Qed.

  Lemma is_member_ok ord thr bad : fair ord ->
    okt sk_small (member_spec sk_eqv bad b a) (is_member keq ok H ord thr size bad a b).
  Proof.
    intros Ho. unfold is_member. eapply okt_bind; [apply sk_make_ok|]. intros t M.
    apply lookup_rows_ok; auto.
    - unfold CHUNK. lia.
    - intros x Hx. now apply sk_lookup.
  Qed.

  Lemma is_member_cat_ok : okt sk_small (member_cat_spec sk_eqv b a) (is_member_cat keq ok H size a b).
  Proof.
    unfold is_member_cat. eapply okt_bind; [apply sk_make_ok|]. intros t M.
    eapply okt_bind.
    - apply all_ret_ok. intros x Hx. apply (sk_lookup 0 t x Hx M).
    - intros rs Hrs. cbn. exists rs. repeat split; auto; cbn.
      + intros E. apply existsb_exists in E as (r & Hr & Er). rewrite <- Er. now apply in_map.
      + intros E. apply in_map_iff in E as (r & Er & Hr). apply existsb_exists. eauto.
  Qed.
End SingleKey.
