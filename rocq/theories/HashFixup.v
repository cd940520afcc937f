(** IsMemberCategoricalFixup. *)
From Verif Require Import Base Mem MemLemmas HashModel HashTable HashSpec HashProofs.
Local Open Scope Z_scope.

Lemma countb_upd {A} (f : A -> bool) (l : list A) : forall i x y, nth_error l i = Some x -> f x = true -> f y = false ->
  countb f l = S (countb f (upd l i y)).
Proof. induction l as [|a l IH]; intros [|i] x y E Fx Fy; cbn in *; try discriminate.
  - inversion E; subst a. rewrite Fx, Fy. cbn. lia.
  - rewrite (IH i x y E Fx Fy). lia.
Qed.

Lemma combine_upd {A B} (a : list A) : forall (b : list B) i x y, nth_error a i = Some x ->
  combine a (upd b i y) = upd (combine a b) i (x, y).
Proof. induction a as [|z a IH]; intros [|w b] [|i] x y E; cbn in *; try discriminate; auto.
  - now inversion E.
  - now rewrite (IH b i x y).
Qed.

Lemma nth_error_combine {A B} (a : list A) : forall (b : list B) i x y, nth_error a i = Some x -> nth_error b i = Some y ->
  nth_error (combine a b) i = Some (x, y).
Proof. induction a as [|z a IH]; intros [|w b] [|i] x y E F; cbn in *; try discriminate; auto. now inversion E; inversion F. Qed.

Section Fix.
  Context (inv base2 : Z) (bins2 uniq : list Z) (nu2 : nat).
  Context (Hinv : inv < 0) (Huniq : forall u, In u uniq -> u = inv \/ 0 <= u < Z.of_nat nu2).
  Context (Hdist : forall i j u, nth_error uniq i = Some u -> nth_error uniq j = Some u -> u <> inv -> i = j).
  Context (Hbins : forall v, In v bins2 -> v < base2 + Z.of_nat nu2) (Hlen : Z.of_nat (length bins2) < 2 ^ 31 - 1).

  Definition rinv (n : nat) (rmap : list Z) : Prop := length rmap = nu2 /\
    forall v r, nth_error rmap v = Some r ->
      (exists l, (l < n)%nat /\ r = Z.of_nat l /\ nth_error uniq l = Some (Z.of_nat v)) \/
      (r = -1 /\ forall l, (l < n)%nat -> nth_error uniq l <> Some (Z.of_nat v)).

  Lemma reverse_map_ok post : forall pre rmap m, uniq = pre ++ post -> rinv (length pre) rmap ->
    exists rmap', reverse_map inv post (Z.of_nat (length pre)) rmap m = Ret (rmap', m + Z.of_nat (countb (fun u => negb (u =? inv)) post)) /\
      rinv (length uniq) rmap'.
  Proof using Hinv Huniq Hdist Hbins Hlen.
    induction post as [|v post IH]; intros pre rmap m E R; cbn [reverse_map].
    - exists rmap. rewrite app_nil_r in E. subst pre. cbn. rewrite Z.add_0_r. auto.
    - assert (Ev : nth_error uniq (length pre) = Some v) by (rewrite E, nth_error_app2, Nat.sub_diag by auto; reflexivity).
      assert (Eq : uniq = (pre ++ [v]) ++ post) by (rewrite <- app_assoc; auto).
      assert (Lp : Z.of_nat (length (pre ++ [v])) = Z.of_nat (length pre) + 1) by (rewrite app_length; cbn; lia).
      destruct (Z.eqb_spec v inv) as [->|N].
      + destruct (IH (pre ++ [inv]) rmap m Eq) as (r' & E' & R').
        { destruct R as (L & R). split; auto. intros w r Hr. rewrite app_length. cbn. destruct (R w r Hr) as [(l & Ll & -> & X)|(-> & X)].
          - left. exists l. split; [lia|auto].
          - right. split; auto. intros l Ll. destruct (Nat.eq_dec l (length pre)) as [->|]; [rewrite Ev; intros C; inversion C; lia|apply X; lia]. }
        rewrite Lp in E'. exists r'. split; auto. rewrite E'. cbn. now rewrite Z.eqb_refl.
      + destruct (Huniq v) as [C|Rv]; [eapply nth_error_In; eauto|now elim N|]. pose proof R as (L & R').
        rewrite zwr_some by lia.
        destruct (IH (pre ++ [v]) (upd rmap (Z.to_nat v) (Z.of_nat (length pre))) (m + 1) Eq) as (r' & E' & R'').
        { split; [now rewrite length_upd|]. intros w r Hr. rewrite app_length. cbn. destruct (Nat.eq_dec w (Z.to_nat v)) as [->|Nw].
          - rewrite nth_error_upd_eq in Hr by lia. inversion Hr; subst r. left. exists (length pre). rewrite Z2Nat.id by lia. split; [lia|auto].
          - rewrite nth_error_upd_neq in Hr by auto. destruct (R' w r Hr) as [(l & Ll & -> & X)|(-> & X)].
            + left. exists l. split; [lia|auto].
            + right. split; auto. intros l Ll. destruct (Nat.eq_dec l (length pre)) as [->|]; [rewrite Ev; intros C; inversion C; lia|apply X; lia]. }
        rewrite Lp in E'. exists r'. split; auto. rewrite E'. cbn. destruct (Z.eqb_spec v inv); [contradiction|]. cbn. f_equal. f_equal. lia.
  Qed.

  (** the first row of category [u] among [pre] *)
  Definition focc (pre : list Z) (u : Z) (j : nat) : Prop := nth_error pre j = Some (u + base2) /\ forall j', (j' < j)%nat -> nth_error pre j' <> Some (u + base2).
  Definition finv (pre reidx : list Z) : Prop := length reidx = length uniq /\
    forall l r u, nth_error reidx l = Some r -> nth_error uniq l = Some u ->
      (u <> inv /\ exists j, r = Z.of_nat j /\ focc pre u j) \/ (r = inv /\ (u = inv \/ ~ In (u + base2) pre)).
  Definition opn (reidx : list Z) : Z := Z.of_nat (countb (fun p => negb (fst p =? inv) && (snd p =? inv)) (combine uniq reidx)).

  Lemma focc_app pre v u j : focc pre u j -> focc (pre ++ [v]) u j.
  Proof using. clear. intros (A & B). split; [rewrite nth_error_app1; auto; now apply nth_error_Some_lt in A|].
    intros j' L. rewrite nth_error_app1; auto. apply nth_error_Some_lt in A. lia. Qed.

  Lemma finv_skip pre v reidx : finv pre reidx -> (forall l r u, nth_error reidx l = Some r -> nth_error uniq l = Some u -> u + base2 = v -> u <> inv -> r <> inv) ->
    finv (pre ++ [v]) reidx.
  Proof using. clear. intros (L & F) N. split; auto. intros l r u Er Eu. destruct (F l r u Er Eu) as [(Nu & j & -> & X)|(-> & [-> |X])].
    - left. split; auto. exists j. split; auto. now apply focc_app.
    - right. auto.
    - destruct (Z.eq_dec u inv) as [->|Nu]; [right; auto|]. right. split; auto. right. intros C. apply in_app_or in C as [C|[C|[]]]; auto.
      eapply N; eauto. Qed.

  Lemma finv_end pre post reidx : finv pre reidx -> opn reidx <= 0 -> finv (pre ++ post) reidx.
  Proof using. clear. intros (L & F) N. split; auto. intros l r u Er Eu. destruct (F l r u Er Eu) as [(Nu & j & -> & X & Y)|(-> & [-> |X])].
    - left. split; auto. exists j. split; auto. pose proof (nth_error_Some_lt _ _ _ X). split; [rewrite nth_error_app1; auto|].
      intros j' Lj. rewrite nth_error_app1; auto. lia.
    - right. auto.
    - destruct (Z.eq_dec u inv) as [->|Nu]; [right; auto|]. exfalso. unfold opn in N.
      erewrite (countb_upd _ _ l (u, inv) (inv, 0)) in N; [lia|now apply nth_error_combine| |]; cbn.
      + rewrite Z.eqb_refl. destruct (Z.eqb_spec u inv); auto; contradiction.
      + now rewrite Z.eqb_refl. Qed.

  Lemma first_occ_ok rmap (R : rinv (length uniq) rmap) post : forall pre reidx, bins2 = pre ++ post -> finv pre reidx -> 0 < opn reidx ->
    exists r, first_occ inv base2 rmap post (Z.of_nat (length pre)) reidx (opn reidx) = Ret r /\ finv bins2 r.
  Proof using Hinv Huniq Hdist Hbins Hlen.
    induction post as [|v post IH]; intros pre reidx E F O; cbn [first_occ].
    - rewrite app_nil_r in E. subst pre. eauto.
    - assert (Eq : bins2 = (pre ++ [v]) ++ post) by (rewrite <- app_assoc; auto).
      assert (Lp : Z.of_nat (length (pre ++ [v])) = Z.of_nat (length pre) + 1) by (rewrite app_length; cbn; lia).
      assert (Hv : v < base2 + Z.of_nat nu2) by (apply Hbins; rewrite E, in_app_iff; cbn; auto).
      destruct R as (Lr & R). pose proof F as (Lf & F').
      destruct (Z.geb_spec v base2) as [G|G].
      + destruct (nth_error_lt rmap (Z.to_nat (v - base2))) as (l & El); [lia|]. rewrite zrd_some, El by lia. cbn [lift obind].
        destruct (R _ _ El) as [(q & Lq & -> & Uq)|(-> & Uq)]; rewrite Z2Nat.id in Uq by lia.
        * destruct (Z.geb_spec (Z.of_nat q) 0); [|lia]. destruct (nth_error_lt reidx q) as (r & Er); [lia|].
          rewrite zrd_some, Nat2Z.id, Er by lia. cbn [lift obind].
          assert (Nq : v - base2 <> inv) by lia.
          destruct (Z.eqb_spec r inv) as [->|Nr].
          -- destruct (Z.geb_spec (Z.of_nat (length pre)) (2 ^ 31 - 1)) as [C|_].
             { rewrite E, app_length in Hlen. cbn [length] in Hlen. lia. }
             rewrite zwr_some, Nat2Z.id by lia. cbn [lift obind].
             assert (Op : opn reidx = 1 + opn (upd reidx q (Z.of_nat (length pre)))).
             { unfold opn. rewrite (combine_upd uniq reidx q _ _ Uq), (countb_upd _ (combine uniq reidx) q (v - base2, inv) (v - base2, Z.of_nat (length pre))); [lia|now apply nth_error_combine| |]; cbn.
               - rewrite Z.eqb_refl. destruct (Z.eqb_spec (v - base2) inv); auto; contradiction.
               - destruct (Z.eqb_spec (Z.of_nat (length pre)) inv); [lia|]. apply Bool.andb_false_r. }
             assert (F2 : finv (pre ++ [v]) (upd reidx q (Z.of_nat (length pre)))).
             { split; [now rewrite length_upd|]. intros l r u Hr Hu. destruct (Nat.eq_dec l q) as [->|Nl].
               - rewrite nth_error_upd_eq in Hr by lia. inversion Hr; subst r. rewrite Uq in Hu. inversion Hu; subst u. left. split; auto.
                 exists (length pre). split; auto. replace (v - base2 + base2) with v by lia. split.
                 + unfold focc. replace (v - base2 + base2) with v by lia. rewrite nth_error_app2, Nat.sub_diag by auto. reflexivity.
                 + intros j' Lj C. rewrite Z.sub_add, nth_error_app1 in C by auto. destruct (F' _ _ _ Er Uq) as [(_ & j & X & _)|(_ & [X|X])]; [lia|lia|].
                   apply X. rewrite Z.sub_add. eapply nth_error_In; eauto.
               - rewrite nth_error_upd_neq in Hr by auto. destruct (F' _ _ _ Hr Hu) as [(Nu & j & -> & X)|(-> & [-> |X])].
                 + left. split; auto. exists j. split; auto. now apply focc_app.
                 + right. auto.
                 + destruct (Z.eq_dec u inv) as [->|Nu]; [right; auto|]. right. split; auto. right. intros C. apply in_app_or in C as [C|[C|[]]]; auto.
                   apply Nl. apply (Hdist _ _ (v - base2)); auto. rewrite Hu. f_equal. lia. }
             destruct (Z.leb_spec (opn reidx - 1) 0) as [Z0|Z0].
             ++ eexists. split; [reflexivity|]. rewrite Eq. apply finv_end; auto. lia.
             ++ rewrite <- Lp. replace (opn reidx - 1) with (opn (upd reidx q (Z.of_nat (length pre)))) by lia. apply IH; auto. lia.
          -- rewrite <- Lp. apply IH; auto. apply finv_skip; auto. intros l r' u Hr Hu Ev Nu C. subst r'. apply Nr.
             assert (l = q). { apply (Hdist _ _ u); auto. rewrite Uq. f_equal. lia. } subst l. congruence.
        * destruct (Z.geb_spec (-1) 0); [lia|]. rewrite <- Lp. apply IH; auto. apply finv_skip; auto. intros l r u Hr Hu Ev Nu C.
          apply (Uq l); [now apply nth_error_Some_lt in Hu|]. rewrite Hu. f_equal. lia.
      + rewrite <- Lp. apply IH; auto. apply finv_skip; auto. intros l r u Hr Hu Ev Nu C.
        destruct (Huniq u) as [X|X]; [eapply nth_error_In; eauto|contradiction|lia].
  Qed.

  Lemma FindFirst_ok : exists r, FindFirstOccurence inv base2 bins2 uniq nu2 = Ret r /\ finv bins2 r.
  Proof.
    unfold FindFirstOccurence. destruct (reverse_map_ok uniq [] (repeat (-1) nu2) 0 eq_refl) as (rmap & E & R).
    { split; [apply repeat_length|]. intros v r Hr. right. apply nth_error_In, repeat_spec in Hr. split; auto. cbn. lia. }
    cbn [length] in E. change (Z.of_nat 0) with 0 in E. rewrite E. cbn [obind]. clear E.
    assert (C : Z.of_nat (countb (fun u => negb (u =? inv)) uniq) = opn (repeat inv (length uniq))).
    { unfold opn. f_equal. clear. induction uniq as [|u l IH]; auto. cbn. rewrite Z.eqb_refl, Bool.andb_true_r, IH. reflexivity. }
    assert (F : finv [] (repeat inv (length uniq))).
    { split; [apply repeat_length|]. intros l r u Hr _. apply nth_error_In, repeat_spec in Hr. right. split; auto. }
    rewrite Z.add_0_l, C. destruct (Z.gtb_spec (opn (repeat inv (length uniq))) 0) as [G|G].
    - apply (first_occ_ok rmap R bins2 []); auto.
    - eexists. split; [reflexivity|]. apply (finv_end []); auto.
  Qed.
End Fix.

Lemma fixup_ok inv base1 base2 bins1 bins2 uniq nu2 : inv < 0 -> (forall u, In u uniq -> u = inv \/ 0 <= u < Z.of_nat nu2) ->
  (forall i j u, nth_error uniq i = Some u -> nth_error uniq j = Some u -> u <> inv -> i = j) ->
  (forall v, In v bins1 -> v < base1 + Z.of_nat (length uniq)) -> (forall v, In v bins2 -> v < base2 + Z.of_nat nu2) ->
  Z.of_nat (length bins2) < 2 ^ 31 - 1 ->
  exists res, IsMemberCategoricalFixup inv base1 base2 bins1 bins2 uniq nu2 = Ret res /\ Forall2 (fixup_row inv base1 base2 bins2 uniq) bins1 res.
Proof.
  intros Hi Hu Hd H1 H2 Hl. unfold IsMemberCategoricalFixup. destruct (FindFirst_ok inv base2 bins2 uniq nu2) as (re & E & L & F); auto. rewrite E. cbn [obind].
  clear E. induction bins1 as [|v bins1 IH]; cbn [map all_ret]; [eauto|].
  assert (X : exists r, final_row inv base1 re v = Ret r /\ fixup_row inv base1 base2 bins2 uniq v r).
  { unfold final_row. destruct (Z.geb_spec v base1) as [G|G].
    - assert (Hv : v < base1 + Z.of_nat (length uniq)) by (apply H1; cbn; auto).
      destruct (nth_error_lt re (Z.to_nat (v - base1))) as (f & Ef); [lia|]. destruct (nth_error_lt uniq (Z.to_nat (v - base1))) as (u & Eu); [lia|].
      rewrite zrd_some, Ef by lia. cbn [lift obind]. eexists. split; [reflexivity|]. destruct (F _ _ _ Ef Eu) as [(Nu & j & -> & A & B)|(-> & A)].
      + left. exists j. split; [split; eauto|]. split.
        * intros j' Lj (_ & u' & Eu' & _ & C). rewrite Eu in Eu'. inversion Eu'; subst u'. exact (B j' Lj C).
        * destruct (Z.eqb_spec (Z.of_nat j) inv); [lia|reflexivity].
      + right. rewrite Z.eqb_refl. split; auto. intros j (_ & u' & Eu' & Nu & C). rewrite Eu in Eu'. inversion Eu'; subst u'. destruct A as [-> |A]; auto.
        apply A. eapply nth_error_In; eauto.
    - eexists. split; [reflexivity|]. right. split; auto. intros j (C & _). lia. }
  destruct X as (r & -> & Hr). cbn [obind]. destruct IH as (rs & -> & Hrs); [intros; apply H1; cbn; auto|]. cbn [obind]. eexists. split; [reflexivity|]. now constructor.
Qed.
