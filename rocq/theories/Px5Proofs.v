(** The results of GroupByAllPack32 for integers. *)
From Verif Require Import Base Mem MemLemmas GroupModel GroupSpec GroupProofs AccumSpec GrpxModel GrpxSpec AllModel AllSpec All5Proofs HeapModel HeapSpec PxModel PxSpec PxProofs.
Local Open Scope Z_scope.

Section Ints.
  Context {F : Type} (A : arith F) (m : xmachine F).

  Lemma int_types func d lo hi mis : int_type d = Some (lo, hi, mis) -> 1 <= d -> exists T, stored d = Some T /\ (forall b, T <> CF b) /\ in_type func d = XNum T /\
    (In func [100; 101; 102; 103; 104; 202; 203] -> out_type func d = XNum T) /\ (In func [200; 201] -> out_type func d = XNum (CI 8)) /\ (func = 204 -> out_type func d = XNum (CI 4)).
  Proof.
    intros H D. destruct (int_stored d _ H) as (T & ET). destruct (int_facts d lo hi mis T H ET) as (N & _). exists T. split; auto. split; auto.
    assert (TY : type_of d = XNum T).
    { unfold type_of. rewrite ET. rewrite (proj2 (Z.eqb_neq d 0)) by lia. destruct (is_text d) eqn:E; auto. apply text_cases in E. cbn [In] in E. destruct E as [<- | [<- | [<- | []]]]; discriminate ET. }
    assert (D0 : (d =? 0) = false) by (apply Z.eqb_neq; lia).
    assert (FL : floating d = false).
    { destruct (floating d) eqn:E; auto. unfold floating in E. apply existsb_exists in E as (x & Hx & E). apply Z.eqb_eq in E. subst x. cbn [In] in Hx. destruct Hx as [<- | [<- | [<- | []]]]; discriminate H. }
    split; [unfold in_type; rewrite D0, andb_false_r; exact TY|]. unfold out_type. split; [|split].
    - cbn [In]. intros [<- | [<- | [<- | [<- | [<- | [<- | [<- | []]]]]]]]; exact TY.
    - cbn [In]. intros [<- | [<- | []]]; cbn [pack_dtype]; rewrite FL; reflexivity.
    - intros ->. reflexivity.
  Qed.
  Lemma lt_int T a b : (forall b, T <> CF b) -> x_lt A (XNum T) (I a) (I b) = (a <? b).
  Proof. intros N. destruct T as [n|n|n]; [reflexivity|reflexivity|destruct (N n eq_refl)]. Qed.
  Lemma num_int T a : (forall b, T <> CF b) -> x_num A (XNum T) a = true.
  Proof. intros N. destruct T as [n|n|n]; [reflexivity|reflexivity|destruct (N n eq_refl)]. Qed.
  Lemma nums_int T l : (forall b, T <> CF b) -> filter (x_num A (XNum T)) l = l.
  Proof. intros N. induction l as [|x l IH]; cbn [filter]; [reflexivity|]. now rewrite num_int, IH. Qed.
  Lemma sorted_int T (zs : list Z) s : (forall b, T <> CF b) -> sorted_of (x_lt A (XNum T)) (map I zs) s -> exists t, s = map I t /\ Permutation zs t /\ StronglySorted Z.le t.
  Proof.
    intros N (P & S). apply Permutation_sym, Permutation_map_inv in P as (t & -> & P). exists t. split; auto. split; [now apply Permutation_sym|].
    clear P. induction t as [|x t IH]; [constructor|]. cbn [map] in S. apply StronglySorted_inv in S as [S1 S2]. constructor; auto.
    rewrite Forall_forall in *. intros y Hy. specialize (S2 (I y) (in_map _ _ _ Hy)). rewrite lt_int in S2 by auto. apply Z.ltb_ge in S2. lia.
  Qed.
  Lemma count_int T zs z : (forall b, T <> CF b) -> countb (x_eq A (XNum T) (I z)) (map I zs) = count_occ Z.eq_dec zs z.
  Proof.
    intros N. unfold countb. induction zs as [|y zs IH]; cbn [map filter count_occ length]; [reflexivity|]. unfold x_eq at 1. rewrite !num_int, !lt_int by auto. cbn [andb].
    destruct (Z.eq_dec y z) as [-> |NE].
    - rewrite Z.ltb_irrefl. cbn [andb negb length]. now rewrite IH.
    - rewrite <- IH. destruct (Z.ltb_spec z y); [reflexivity|]. destruct (Z.ltb_spec y z); [reflexivity|lia].
  Qed.
  Lemma quot_mid lo hi a b : lo <= a <= hi -> lo <= b <= hi -> lo <= Z.quot (a + b) 2 <= hi.
  Proof. intros Ha Hb. pose proof (Z.quot_rem (a + b) 2 ltac:(lia)) as Q. pose proof (Z.rem_bound_abs (a + b) 2 ltac:(lia)) as B. change (Z.abs 2) with 2 in B. lia. Qed.

  Theorem pack_integers func d lo hi mis param zs r : int_type d = Some (lo, hi, mis) -> 1 <= d -> Forall (fun z => lo <= z <= hi) zs -> In func [100; 101; 102; 103; 104] ->
    pack_spec A m func d param (map I zs) r -> exists z, r = I z /\ pack_integer func mis param zs z.
  Proof.
    intros H D HR HF S. destruct (int_types func d lo hi mis H D) as (T & ET & N & TI & TO & _). destruct (int_facts d lo hi mis T H ET) as (_ & HW & HI & _).
    assert (TO' : out_type func d = XNum T) by (apply TO; cbn [In] in *; tauto). unfold pack_spec in S. cbv zeta in S. rewrite TI, TO' in S.
    assert (CV : forall z, In z zs -> x_conv A (XNum T) (I z) = I z) by (intros z Hz; rewrite Forall_forall in HR; cbn [x_conv]; apply (conv_int A T lo hi); auto).
    assert (IV : x_inv A (XNum T) = I mis).
    { cbn [x_inv]. destruct T as [n|n|n]; [| |destruct (N n eq_refl)]; cbn [inval]; now rewrite <- HI. }
    rewrite IV in S. cbn [In] in HF. destruct HF as [<- | [<- | [<- | [<- | [<- | []]]]]]; cbn [pack_integer].
    - unfold first_spec, or_inv in S. destruct zs as [|z zs]; cbn [map hd_error hd] in *; [eauto|]. rewrite CV in S by now left. eauto.
    - unfold nth_spec, or_inv, py_nth in S. rewrite map_length in S. cbv zeta in *. set (i := if 0 <=? param then param else Z.of_nat (length zs) + param) in *.
      destruct (0 <=? i); [|eauto]. rewrite nth_error_map in S. destruct (nth_error zs (Z.to_nat i)) as [z|] eqn:E; cbn [option_map] in S.
      + rewrite CV in S by (eapply nth_error_In; eauto). exists z. split; auto. symmetry. now apply nth_error_nth.
      + exists mis. split; auto. rewrite nth_overflow; auto. now apply nth_error_None.
    - unfold last_spec, or_inv in S. rewrite <- map_rev in S. destruct zs as [|z zs] using rev_ind; cbn in *; [eauto|]. rewrite rev_app_distr in S. cbn [rev app map hd_error] in S.
      rewrite CV in S by (apply in_or_app; right; now left). exists z. split; auto. now rewrite last_last.
    - unfold median_spec in S. rewrite nums_int in S by auto. destruct zs as [|z zs]; [exists mis; split; [exact S|reflexivity]|].
      cbn [map] in S. change (I z :: map I zs) with (map (@I F) (z :: zs)) in S. set (l := z :: zs) in *. cbn [Nat.eqb length].
      change (length l =? 0)%nat with false. cbv iota.
      destruct S as (s & SS & S). destruct (sorted_int T l s N SS) as (t & -> & P & ST). rewrite map_length in S. destruct (Nat.odd (length l)) eqn:EO.
      + destruct S as (y & Ey & ->). rewrite nth_error_map in Ey. destruct (nth_error t (length l / 2)) as [v|] eqn:Ev; [|discriminate Ey]. injection Ey as <-.
        assert (Hv : In v l) by (apply (Permutation_in _ (Permutation_sym P)); eapply nth_error_In; eauto).
        rewrite CV by exact Hv. exists v. split; auto. exists t. split; auto. split; auto. rewrite EO. exact Ev.
      + destruct S as (y & y' & Ey & Ey' & ->). rewrite nth_error_map in Ey, Ey'.
        destruct (nth_error t (length l / 2)) as [v|] eqn:Ev; [|discriminate Ey]. injection Ey as <-.
        destruct (nth_error t (length l / 2 - 1)) as [v'|] eqn:Ev'; [|discriminate Ey']. injection Ey' as <-.
        assert (Hv : In v l) by (apply (Permutation_in _ (Permutation_sym P)); eapply nth_error_In; eauto).
        assert (Hv' : In v' l) by (apply (Permutation_in _ (Permutation_sym P)); eapply nth_error_In; eauto).
        rewrite Forall_forall in HR. pose proof (quot_mid lo hi v v' (HR _ Hv) (HR _ Hv')) as QM.
        exists (Z.quot (v' + v) 2). split.
        * replace (midpoint A (XNum T) (I v) (I v')) with (@I F (Z.quot (v + v') 2)) by (destruct T as [n|n|n]; [reflexivity|reflexivity|destruct (N n eq_refl)]).
          cbn [x_conv]. rewrite (conv_int A T lo hi) by auto. do 2 f_equal. lia.
        * exists t. split; auto. split; auto. rewrite EO. exists v', v. auto.
    - unfold mode_spec in S. rewrite nums_int in S by auto. destruct zs as [|z zs]; [exists mis; split; [exact S|reflexivity]|].
      cbn [map] in S. change (I z :: map I zs) with (map (@I F) (z :: zs)) in S. set (l := z :: zs) in *. change (length l =? 0)%nat with false. cbv iota.
      destruct S as (y & -> & Hy & S). apply in_map_iff in Hy as (v & <- & Hv). rewrite CV by exact Hv. exists v. split; auto. split; auto.
      intros x Hx. destruct (S (I x) (in_map _ _ _ Hx)) as [S1 S2]. rewrite !count_int in S1, S2 by auto. split; auto. intros E. specialize (S2 E). rewrite lt_int in S2 by auto. apply Z.ltb_ge in S2. lia.
  Qed.

  Theorem roll_integers func d lo hi mis param zs k r : int_type d = Some (lo, hi, mis) -> 1 <= d -> Forall (fun z => lo <= z <= hi) zs -> (k < length zs)%nat -> Z.of_nat (length zs) <= 2 ^ 31 ->
    In func [200; 201; 202; 203; 204] -> roll_spec A func d param (map I zs) k r -> exists z, r = I z /\ roll_integer func lo hi mis param zs k z.
  Proof.
    intros H D HR HK HL HF SP. destruct (int_types func d lo hi mis H D) as (T & ET & N & TI & TO & TS & TC). destruct (int_facts d lo hi mis T H ET) as (_ & HW & HI & _).
    assert (CV : forall z, In z zs -> x_conv A (XNum T) (I z) = I z) by (intros z Hz; rewrite Forall_forall in HR; cbn [x_conv]; apply (conv_int A T lo hi); auto).
    assert (IV : x_inv A (XNum T) = I mis).
    { cbn [x_inv]. destruct T as [n|n|n]; [| |destruct (N n eq_refl)]; cbn [inval]; now rewrite <- HI. }
    assert (WI : window param k (map (@I F) zs) = map I (skipn (length (firstn (S k) zs) - Z.to_nat param) (firstn (S k) zs))).
    { unfold window. rewrite firstn_map, skipn_map. do 2 f_equal; [rewrite firstn_length_le; lia|f_equal; lia]. }
    assert (SM : forall l, total (x_zero A (XNum (CI 8))) (x_conv A (XNum (CI 8))) (x_add A (XNum (CI 8))) (map I l) = I (wrapT (CI 8) (fold_right Z.add 0 l))).
    { intros l. unfold total. cbn [x_zero x_conv x_add zero_of]. rewrite <- (Z.add_0_l (fold_right Z.add 0 l)). rewrite <- (total_int A (CI 8)); [|reflexivity|discriminate|reflexivity].
      generalize (@I F 0). induction l as [|x l IH]; intros s; cbn [map fold_left]; auto. }
    unfold roll_spec in SP. cbv zeta in SP. rewrite TI in SP. cbn [In] in HF. destruct HF as [<- | [<- | [<- | [<- | [<- | []]]]]]; unfold roll_integer; cbv zeta.
    - rewrite TS in SP by (cbn; auto). unfold rsum_spec in SP. rewrite WI, SM in SP. eexists. split; [exact SP|]. apply (wrap_sum64 7).
    - rewrite TS in SP by (cbn; auto). unfold rnansum_spec in SP. rewrite WI in SP. set (w := skipn _ _) in *.
      assert (HR' : Forall (fun z => lo <= z <= hi) w).
      { apply Forall_forall. rewrite Forall_forall in HR. intros z Hz. apply HR. unfold w in Hz. clear - Hz. rewrite <- (firstn_skipn (S k) zs). apply in_or_app. left.
        rewrite <- (firstn_skipn (length (firstn (S k) zs) - Z.to_nat param) (firstn (S k) zs)). apply in_or_app. now right. }
      change (filter (x_ok A (XNum T)) (map I w)) with (filter (ok A T) (map I w)) in SP. rewrite (proj2 (oks_int A T lo hi mis w N HW HI HR')), SM in SP. eexists. split; [exact SP|]. apply (wrap_sum64 7).
    - rewrite TO in SP by (cbn; tauto). unfold rdiff_spec, lag in SP. rewrite IV in SP. rewrite !nth_error_map in SP.
      destruct (nth_error zs k) as [x|] eqn:Ex; [|apply nth_error_None in Ex; lia]. cbn [option_map] in SP. destruct (0 <=? Z.of_nat k - param); [|eauto].
      destruct (nth_error zs (Z.to_nat (Z.of_nat k - param))) as [y|] eqn:Ey; cbn [option_map] in SP; [|eauto].
      rewrite !CV in SP by (eapply nth_error_In; eauto). rewrite (nth_error_nth zs k 0 Ex).
      assert (XS : x_sub A (XNum T) (I x) (I y) = I (wrapT T (x - y))) by (destruct T as [n|n|n]; [reflexivity|reflexivity|destruct (N n eq_refl)]).
      rewrite XS in SP. eexists. split; [exact SP|].
      clear - H ET D. unfold int_type in H. each_dtype d; [exfalso; lia|..]; clear D; injection H as <- <- <-; injection ET as <-; unfold wrapT;
        match goal with |- context [?a mod ?b] => let c := eval vm_compute in b in change b with c; pose proof (Z.mod_pos_bound a c ltac:(lia)) as B; pose proof (Z.div_mod a c ltac:(lia)) as DM; set (q := a / c) in *; set (rr := a mod c) in *; clearbody q rr end;
        repeat match goal with |- context [2 ^ ?e] => let c := eval vm_compute in (2 ^ e) in change (2 ^ e) with c end;
        repeat match goal with H0 : context [2 ^ ?e] |- _ => let c := eval vm_compute in (2 ^ e) in change (2 ^ e) with c in H0 end;
        (split; [lia|exists (- q); lia]).
    - rewrite TO in SP by (cbn; tauto). unfold rshift_spec, lag in SP. rewrite IV in SP. rewrite !nth_error_map in SP. destruct (0 <=? Z.of_nat k - param); [|eauto].
      destruct (nth_error zs (Z.to_nat (Z.of_nat k - param))) as [y|] eqn:Ey; cbn [option_map] in SP; [|eauto]. rewrite CV in SP by (eapply nth_error_In; eauto). eauto.
    - unfold rcount_spec in SP. rewrite map_length in SP. eexists. split; [exact SP|].
      set (c := if param <? 0 then _ else _). assert (B : 0 <= c < 2 ^ 31) by (unfold c; destruct (param <? 0); lia). clearbody c. cbn [wrapT]. change (8 * 4 - 1) with 31. change (8 * 4) with 32.
      rewrite Z.mod_small by (change (2 ^ 32) with (2 * 2 ^ 31); lia). lia.
  Qed.
End Ints.
