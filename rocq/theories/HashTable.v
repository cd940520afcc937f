(** Linear probing: what a search finds, and the invariant that insertion keeps. *)
From Verif Require Import Base Mem MemLemmas HashModel.
Local Open Scope Z_scope.

Section Table.
  Context {P : Type}.
  Implicit Types (t : list (option P)).

  Definition pos t (h : Z) (d : nat) : Z := (h + Z.of_nat d) mod Z.of_nat (length t).
  Definition occ t (s : Z) (p : P) : Prop := zrd t s = Some (Some p).
  (** the first [d] positions from [h] are taken by entries that satisfy [Q] *)
  Definition run t (Q : P -> Prop) (h : Z) (d : nat) : Prop := forall e, (e < d)%nat -> exists p, occ t (pos t h e) p /\ Q p.

  Lemma pos_range t h d : (0 < length t)%nat -> 0 <= pos t h d < Z.of_nat (length t).
  Proof. intros H. apply Z.mod_pos_bound. lia. Qed.

  Lemma pos_0 t h : 0 <= h < Z.of_nat (length t) -> pos t h 0 = h.
  Proof. intros H. unfold pos. rewrite Z.add_0_r. now apply Z.mod_small. Qed.

  Lemma pos_S t h d : (0 < length t)%nat ->
    pos t h (S d) = if pos t h d + 1 >=? Z.of_nat (length t) then 0 else pos t h d + 1.
  Proof.
    intros H. pose proof (pos_range t h d H) as R. unfold pos in *.
    replace (h + Z.of_nat (S d)) with (h + Z.of_nat d + 1) by lia.
    rewrite <- Zplus_mod_idemp_l. set (q := (h + Z.of_nat d) mod _) in *.
    rewrite Z.geb_leb. destruct (Z.leb_spec (Z.of_nat (length t)) (q + 1)).
    - replace (q + 1) with (Z.of_nat (length t)) by lia. apply Z_mod_same_full.
    - apply Z.mod_small. lia.
  Qed.

  Lemma pos_inj t h d e : (d < length t)%nat -> (e < length t)%nat -> pos t h d = pos t h e -> d = e.
  Proof.
    intros Hd He E. unfold pos in E.
    assert (Hn : 0 < Z.of_nat (length t)) by lia.
    pose proof (Z.div_mod (h + Z.of_nat d) (Z.of_nat (length t)) ltac:(lia)) as A.
    pose proof (Z.div_mod (h + Z.of_nat e) (Z.of_nat (length t)) ltac:(lia)) as B.
    rewrite E in A. set (x := (h + Z.of_nat d) / _) in *. set (y := (h + Z.of_nat e) / _) in *.
    assert (Z.of_nat d - Z.of_nat e = Z.of_nat (length t) * (x - y)) by lia.
    assert (x - y = 0) by nia. lia.
  Qed.

  Lemma pos_surj t h s : 0 <= h < Z.of_nat (length t) -> 0 <= s < Z.of_nat (length t) -> exists d, (d < length t)%nat /\ pos t h d = s.
  Proof.
    intros Hh Hs. destruct (Z.leb_spec h s).
    - exists (Z.to_nat (s - h)). split; [lia|]. unfold pos. rewrite Z2Nat.id by lia.
      replace (h + (s - h)) with s by lia. now apply Z.mod_small.
    - exists (Z.to_nat (s - h + Z.of_nat (length t))). split; [lia|]. unfold pos. rewrite Z2Nat.id by lia.
      replace (h + (s - h + Z.of_nat (length t))) with (s + 1 * Z.of_nat (length t)) by lia.
      rewrite Z_mod_plus_full. now apply Z.mod_small.
  Qed.

  (** ** What a search returns *)
  Section Search.
    Context (t : list (option P)) (m : P -> option bool) (b : P -> bool) (h : Z).
    Context (Hm : forall s p, occ t s p -> m p = Some (b p)) (Hh : 0 <= h < Z.of_nat (length t)).

    Definition search_result (r : probed P) : Prop :=
      match r with
      | Found s p => exists d, (d < length t)%nat /\ s = pos t h d /\ occ t s p /\ b p = true /\ run t (fun q => b q = false) h d
      | Free s => exists d, (d < length t)%nat /\ s = pos t h d /\ zrd t s = Some None /\ run t (fun q => b q = false) h d
      | Full => run t (fun q => b q = false) h (length t)
      end.

    Lemma probe_loop_ok fuel : forall d, (d < length t)%nat -> fuel = (length t - d)%nat -> run t (fun q => b q = false) h d ->
      exists r, probe_loop fuel t m h (pos t h d) = Ret r /\ search_result r.
    Proof.
      induction fuel as [|fuel IH]; intros d Hd Hf Hr; [lia|].
      cbn [probe_loop].
      assert (Hn : (0 < length t)%nat) by lia.
      pose proof (pos_range t h d Hn) as R.
      destruct (nth_error_lt t (Z.to_nat (pos t h d))) as (s & Es); [lia|].
      assert (E : zrd t (pos t h d) = Some s) by (rewrite zrd_some by lia; exact Es).
      rewrite E. cbn [lift obind]. destruct s as [p|].
      - rewrite (Hm _ _ E). cbn [lift obind]. destruct (b p) eqn:Eb.
        + eexists; split; [reflexivity|]. exists d. auto.
        + rewrite <- pos_S by auto.
          assert (Hr' : run t (fun q => b q = false) h (S d)).
          { intros e He. destruct (Nat.eq_dec e d) as [->|]; [exists p; auto | apply Hr; lia]. }
          destruct (Z.eqb_spec (pos t h (S d)) h) as [Eh|Nh].
          * eexists; split; [reflexivity|]. cbn.
            destruct (Nat.eq_dec (S d) (length t)) as [<-|]; auto.
            exfalso. rewrite <- (pos_0 t h Hh) in Eh at 2. apply pos_inj in Eh; lia.
          * destruct (Nat.eq_dec (S d) (length t)) as [El|].
            { exfalso. apply Nh. unfold pos. rewrite El. replace (h + Z.of_nat (length t)) with (h + 1 * Z.of_nat (length t)) by lia.
              rewrite Z_mod_plus_full. now apply Z.mod_small. }
            apply IH; auto; lia.
      - eexists; split; [reflexivity|]. exists d. auto.
    Qed.

    Lemma probe_ok : exists r, probe t m h = Ret r /\ search_result r.
    Proof.
      unfold probe. pose proof (probe_loop_ok (length t) 0) as A. rewrite pos_0 in A by auto.
      apply A; try lia. intros e He. lia.
    Qed.
  End Search.

  (** ** The invariant *)
  Definition somes t : list P := flat_map (fun s => match s with Some p => [p] | None => [] end) t.

  Lemma somes_app t1 t2 : somes (t1 ++ t2) = somes t1 ++ somes t2.
  Proof. unfold somes. now rewrite flat_map_app. Qed.

  Lemma in_somes t p : In p (somes t) <-> exists s, occ t s p.
  Proof.
    unfold somes. rewrite in_flat_map. split.
    - intros ([q|] & Hi & Hq); [|now destruct Hq]. destruct Hq as [->|[]].
      apply In_nth_error in Hi as (i & Hi). exists (Z.of_nat i). unfold occ. rewrite zrd_some by lia. now rewrite Nat2Z.id.
    - intros (s & Hs). apply zrd_inv in Hs as (_ & Hs). exists (Some p). split; [now apply nth_error_In in Hs | now left].
  Qed.

  Lemma somes_le t : (length (somes t) <= length t)%nat.
  Proof. induction t as [|[p|] t IH]; simpl; lia. Qed.

  Lemma somes_full t : (forall s, 0 <= s < Z.of_nat (length t) -> exists p, occ t s p) -> length (somes t) = length t.
  Proof.
    intros H. assert (forall o, In o t -> o <> None).
    { intros o Ho ->. apply In_nth_error in Ho as (i & Hi). destruct (H (Z.of_nat i)) as (p & Hp).
      - apply nth_error_Some_lt in Hi. lia.
      - unfold occ in Hp. rewrite zrd_some, Nat2Z.id in Hp by lia. congruence. }
    clear H. induction t as [|[p|] t IH]; simpl in *.
    - reflexivity.
    - f_equal. apply IH. intros o Ho. apply H0. auto.
    - exfalso. apply (H0 None); auto.
  Qed.

  Lemma store_split t s o : zrd t s = Some o -> exists l1 l2, t = l1 ++ o :: l2 /\ forall p, store t s p = l1 ++ Some p :: l2.
  Proof.
    intros H. apply zrd_inv in H as (_ & H). pose proof (nth_error_split _ _ H) as (l1 & l2 & -> & Hl).
    exists l1, l2. split; auto. intros p. unfold store. rewrite <- Hl.
    rewrite upd_app_r by lia. now rewrite Nat.sub_diag.
  Qed.

  Lemma store_length t s p : length (store t s p) = length t.
  Proof. apply length_upd. Qed.

  Lemma store_occ t s p s' q : 0 <= s < Z.of_nat (length t) ->
    occ (store t s p) s' q <-> (s' = s /\ q = p) \/ (s' <> s /\ occ t s' q).
  Proof.
    intros Hs. unfold occ, store. split.
    - intros H. pose proof (zrd_inv _ _ _ H) as (R & E). rewrite nth_error_upd in E.
      destruct (Nat.eqb_spec (Z.to_nat s) (Z.to_nat s')) as [Ei|Ni].
      + assert (s' = s) as -> by lia. left. split; auto.
        destruct (Nat.ltb_spec (Z.to_nat s) (length t)); cbn in E; [congruence|lia].
      + right. split; [intros ->; auto|]. rewrite zrd_some by lia. exact E.
    - intros [(-> & ->)|(N & E)].
      + rewrite zrd_some by lia. apply nth_error_upd_eq. lia.
      + apply zrd_inv in E as (R & E). rewrite zrd_some by lia. rewrite nth_error_upd_neq; auto. lia.
  Qed.

  Lemma store_pos t s p h d : pos (store t s p) h d = pos t h d.
  Proof. unfold pos. now rewrite store_length. Qed.

    Lemma in_somes_insert t s p q : zrd t s = Some None -> In q (somes (store t s p)) <-> q = p \/ In q (somes t).
    Proof.
      intros E. destruct (store_split t s _ E) as (l1 & l2 & -> & Est). rewrite Est, !somes_app. simpl.
      rewrite !in_app_iff. simpl. intuition (subst; auto).
    Qed.

  Section Inv.
    Context {K : Type} (key : P -> K) (H : K -> Z).

    Definition reach t (h s : Z) : Prop := exists d, (d < length t)%nat /\ s = pos t h d /\ run t (fun _ => True) h d.

    Record tinv t : Prop := {
      ti_reach : forall s p, occ t s p -> reach t (H (key p)) s;
      ti_nodup : NoDup (map key (somes t))
    }.

    Lemma tinv_new size : tinv (new_table size).
    Proof.
      split.
      - intros s p Hs. apply zrd_inv in Hs as (_ & Hs). unfold new_table in Hs. rewrite nth_error_repeat' in Hs.
        now destruct (Nat.ltb _ _).
      - unfold new_table. induction (Z.to_nat size); simpl; auto. constructor.
    Qed.

    Lemma run_store t (Q : P -> Prop) s p h d : 0 <= s < Z.of_nat (length t) ->
      run t (fun _ => True) h d -> run (store t s p) (fun _ => True) h d.
    Proof.
      intros Hs Hr e He. destruct (Hr e He) as (q & Hq & _). rewrite store_pos.
      destruct (Z.eq_dec (pos t h e) s) as [E|N].
      - exists p. split; auto. apply store_occ; auto.
      - exists q. split; auto. apply store_occ; auto.
    Qed.

    Lemma reach_store t s p h s' : 0 <= s < Z.of_nat (length t) -> reach t h s' -> reach (store t s p) h s'.
    Proof.
      intros Hs (d & Hd & -> & Hr). exists d. rewrite store_length, store_pos. repeat split; auto.
      apply (run_store t (fun _ => True)); auto.
    Qed.

    (** replacing an entry by one with the same key *)
    Lemma tinv_replace t s p p' : tinv t -> occ t s p -> key p' = key p -> tinv (store t s p').
    Proof.
      intros [R N] Ho E. assert (Hs : 0 <= s < Z.of_nat (length t)) by (apply zrd_inv in Ho; tauto). split.
      - intros s' q Hq. apply store_occ in Hq as [(-> & ->)|(_ & Hq)]; auto.
        + rewrite E. apply reach_store; auto.
        + apply reach_store; auto.
      - destruct (store_split t s _ Ho) as (l1 & l2 & -> & Es). rewrite Es.
        rewrite !somes_app in *. simpl in *. rewrite !map_app in *. simpl in *. now rewrite E.
    Qed.

    (** a search for key [k] *)
    Definition no_key t (k : K) : Prop := forall p, In p (somes t) -> key p <> k.

    Lemma tinv_insert t s d p : tinv t -> 0 <= H (key p) < Z.of_nat (length t) -> (d < length t)%nat -> s = pos t (H (key p)) d ->
      zrd t s = Some None -> run t (fun _ => True) (H (key p)) d -> no_key t (key p) -> tinv (store t s p).
    Proof.
      intros [R N] Hh Hd Es E Hr Hk. assert (Hs : 0 <= s < Z.of_nat (length t)) by (apply zrd_inv in E; tauto). split.
      - intros s' q Hq. apply store_occ in Hq as [(-> & ->)|(_ & Hq)]; auto.
        + apply reach_store; auto. exists d. auto.
        + apply reach_store; auto.
      - unfold no_key in Hk. destruct (store_split t s _ E) as (l1 & l2 & -> & Est). rewrite Est. clear -N Hk.
        rewrite !somes_app in *. simpl in *. rewrite map_app in *. simpl.
        eapply Permutation_NoDup; [apply Permutation_middle|]. constructor; auto.
        rewrite <- map_app. intros C. apply in_map_iff in C as (q & Eq & Hq). now apply (Hk q).
    Qed.

    Lemma in_somes_replace t s p p' q : occ t s p -> NoDup (map key (somes t)) ->
      In q (somes (store t s p')) <-> q = p' \/ (In q (somes t) /\ key q <> key p).
    Proof.
      intros E N. destruct (store_split t s _ E) as (l1 & l2 & -> & Est). rewrite Est, !somes_app in *. simpl in *.
      rewrite map_app in N. simpl in N. rewrite !in_app_iff. simpl.
      pose proof (NoDup_remove_2 _ _ _ N) as Nk. rewrite <- map_app, in_map_iff in Nk.
      assert (A : forall x, In x (somes l1) \/ In x (somes l2) -> key x <> key p).
      { intros x Hx C. apply Nk. exists x. rewrite in_app_iff. auto. }
      split.
      - intros [Hq|[Hq|Hq]]; [right|left; auto|right]; split; auto.
      - intros [->|([Hq|[Hq|Hq]] & Nq)]; auto. subst. now destruct Nq.
    Qed.

    Inductive found_in t (k : K) : probed P -> Prop :=
    | fi_found s p : occ t s p -> In p (somes t) -> key p = k -> found_in t k (Found s p)
    | fi_free s : zrd t s = Some None -> no_key t k -> (forall p, key p = k -> tinv (store t s p)) -> found_in t k (Free s)
    | fi_full : no_key t k -> length (somes t) = length t -> found_in t k Full.

    Lemma probe_inv t m k : tinv t -> 0 <= H k < Z.of_nat (length t) ->
      (forall p, In p (somes t) -> exists b, m p = Some b /\ (b = true <-> key p = k)) ->
      exists r, probe t m (H k) = Ret r /\ found_in t k r.
    Proof.
      intros I Hh Hm.
      set (b := fun p => match m p with Some true => true | _ => false end).
      assert (Hmb : forall s p, occ t s p -> m p = Some (b p)).
      { intros s p Hp. destruct (Hm p) as (x & Ex & _); [apply in_somes; eauto|]. unfold b. rewrite Ex. now destruct x. }
      assert (Hb : forall p, In p (somes t) -> (b p = true <-> key p = k)).
      { intros p Hp. destruct (Hm p Hp) as (x & Ex & Hx). unfold b. rewrite Ex. destruct x; tauto. }
      (* an entry with key k stops the search *)
      assert (Hstop : forall d, (d <= length t)%nat -> run t (fun q => b q = false) (H k) d ->
                ((d < length t)%nat -> zrd t (pos t (H k) d) = Some None) -> no_key t k).
      { intros d Hd Hr Hfree p Hp E. pose proof (proj1 (in_somes t p) Hp) as (s & Hs).
        destruct (ti_reach t I s p Hs) as (d' & Hd' & -> & Hr'). rewrite E in *.
        destruct (Nat.lt_trichotomy d' d) as [L|[->|L]].
        - destruct (Hr d' L) as (q & Hq & Bq). unfold occ in *. rewrite Hq in Hs. inversion Hs; subst.
          rewrite (proj2 (Hb p Hp)) in Bq; congruence.
        - unfold occ in Hs. rewrite Hfree in Hs by auto. discriminate.
        - destruct (Hr' d L) as (q & Hq & _). unfold occ in Hq. rewrite Hfree in Hq by lia. discriminate. }
      destruct (probe_ok t m b (H k) Hmb Hh) as (r & Er & Hr). exists r. split; auto.
      destruct r as [s p|s|]; cbn in Hr.
      - destruct Hr as (d & Hd & -> & Ho & Hbp & _).
        assert (In p (somes t)) by (apply in_somes; eauto).
        constructor; auto. now apply Hb.
      - destruct Hr as (d & Hd & -> & Hn & Hrun).
        assert (Nk : no_key t k) by (apply (Hstop d); auto; lia).
        constructor; auto. intros p <-. eapply tinv_insert; eauto.
        intros e He. destruct (Hrun e He) as (q & Hq & _). eauto.
      - constructor.
        + apply (Hstop (length t)); auto. lia.
        + apply somes_full. intros s Hs. destruct (pos_surj t (H k) s Hh Hs) as (d & Hd & <-).
          destruct (Hr d Hd) as (q & Hq & _). eauto.
    Qed.

    (** With fewer keys than positions the table is never full. *)
    Lemma not_full t (U : list K) : tinv t -> (forall p, In p (somes t) -> In (key p) U) -> (length U < length t)%nat ->
      length (somes t) <> length t.
    Proof.
      intros I HU L E. assert (length (map key (somes t)) <= length U)%nat.
      { apply NoDup_incl_length; [apply I|]. intros k Hk. apply in_map_iff in Hk as (p & <- & Hp). auto. }
      rewrite map_length in *. lia.
    Qed.
  End Inv.
End Table.
