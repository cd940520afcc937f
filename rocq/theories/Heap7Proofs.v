(** The rolling quantile: exact indices, groups, examples. *)
From Verif Require Import Base Mem MemLemmas AccumSpec GroupModel GroupSpec GrpxModel GrpxSpec GrpxProofs Grpx3Proofs HeapModel HeapGrpModel HeapSpec HeapProofs Heap2Proofs Heap3Proofs Heap4Proofs Heap5Proofs Heap6Proofs.
From Verif Require RollSpec.
Local Open Scope Z_scope.

Lemma clear_ok k n : clear_index k n -> IntegralIndex k n = exact_index k n /\ IndexIsIntegral k n = exact_whole k n.
Proof.
  unfold clear_index, IntegralIndex, IndexIsIntegral, exact_index, exact_whole, FractionalIndex. cbv zeta. set (x := (Z.of_nat n - 1) * k). unfold MULT. change (1000000000 / 1000) with 1000000. intros C.
  destruct (Z.ltb_spec (1000000000 - 1000000) (x mod 1000000000)); [lia |]. split; auto. rewrite orb_false_r. destruct (Z.ltb_spec (x mod 1000000000) 1000000), (Z.eqb_spec (x mod 1000000000) 0); lia || auto.
Qed.
Lemma filter_len {A} (f : A -> bool) l : (length (filter f l) <= length l)%nat.
Proof. induction l as [| a l IH]; cbn; auto. destruct (f a); cbn; lia. Qed.
Section Top.
  Context {T U : Type} (less : T -> T -> bool) (valid : T -> bool) (uinv : U) (conv : T -> U) (split_ : T -> T -> U).
  Hypothesis OK : order_ok valid less.
  Lemma quantile_ext idx idx' whole whole' w u : (forall n, (0 < n <= length w)%nat -> idx' n = idx n /\ whole' n = whole n) ->
    quantile_of less valid uinv conv split_ idx whole w u -> quantile_of less valid uinv conv split_ idx' whole' w u.
  Proof.
    intros E. unfold quantile_of. cbv zeta. pose proof (filter_len valid w) as L. destruct (Nat.eqb_spec (length (filter valid w)) 0); auto.
    destruct (E (length (filter valid w)) ltac:(lia)) as [-> ->]. auto.
  Qed.
  Lemma RollingQuantile_exact k w l : 0 <= k <= MULT -> 0 < w -> (forall n, (0 < n <= Z.to_nat w)%nat -> clear_index k n) ->
    exists us, RollingQuantile less valid uinv conv split_ (k + w * (MULT + 1)) l = QOk us /\ RollSpec.rolled (quantile_row less valid uinv conv split_ (exact_index k) (exact_whole k) w l) l us.
  Proof.
    intros K Wp C. destruct (RollingQuantile_ok less valid uinv conv split_ OK k w l K Wp) as (us & E & L & R). exists us. split; auto. split; auto. intros i u H. specialize (R i u H). unfold quantile_row in *.
    eapply quantile_ext; [| exact R]. intros n Hn. assert (length (window w i l) <= Z.to_nat w)%nat by (unfold window; rewrite skipn_length, firstn_length; lia).
    destruct (clear_ok k n (C n ltac:(lia))) as [-> ->]. auto.
  Qed.
  Lemma updates_code k W l : 0 <= k <= MULT -> (2 <= W)%nat ->
    exists us s, updates less valid uinv conv split_ (IntegralIndex k) (IndexIsIntegral k) W (IntegralIndex k W + 1) (W - (IntegralIndex k W + 1)) l (rq_init W) = Some (us, s) /\
      two_heaps less valid (IntegralIndex k) W l s /\ length us = length l.
  Proof.
    intros K HW. destruct (updates_rows less valid uinv conv split_ (IntegralIndex k) (IndexIsIntegral k) W (index_ok_code k K) OK HW l) as (us & s & E & H & L & _). eauto.
  Qed.
End Top.

Section Groups.
  Context {T U : Type} (n : Z) (keys : list Z) (src : list T) (ncount igroup ifirst : list Z).
  Context (less : T -> T -> bool) (valid : T -> bool) (uinv : U) (conv : T -> U) (split_ : T -> T -> U).
  Hypothesis lay : layout n keys src ncount igroup ifirst.
  Hypothesis OK : order_ok valid less.
  Notation vals g := (group_vals (combine keys src) g).
  Notation rows g := (rows_with keys g).
  Lemma vals_at g k : (k < length (rows g))%nat -> exists x, nth_error (vals g) k = Some x.
  Proof. intros H. destruct (nth_error (vals g) k) as [x |] eqn:E; eauto. apply nth_error_None in E. rewrite (vals_len n keys src ncount igroup ifirst lay) in E. lia. Qed.
  Lemma roll_one_ok k g : 0 < g < n -> exists ws, roll_one src igroup ifirst ncount valid uinv conv g = Some ws /\
    row_ok keys (quantile_row less valid uinv conv split_ (IntegralIndex k) (IndexIsIntegral k) 1 (vals g)) g ws.
  Proof.
    intros Hg. destruct (layout_bin n keys src ncount igroup ifirst lay g ltac:(lia)) as (f & Ef & Ec & F0 & Fb & Hr & Hs).
    unfold roll_one. rewrite Ef, Ec, Nat2Z.id.
    edestruct (roll_up keys igroup (fun j (s : unit) => match src_at src igroup j with Some x => Some (s, if valid x then conv x else uinv) | None => None end)
      (fun _ _ => True) (quantile_row less valid uinv conv split_ (IntegralIndex k) (IndexIsIntegral k) 1 (vals g)) g f Hr (length (rows g)) 0 tt) as (ws & s' & E & _ & Hm & Hq); auto.
    - intros i [] Hi _. rewrite Hs by lia. destruct (vals_at g i ltac:(lia)) as (x & Ex). rewrite Ex. eexists _, _. split; [reflexivity |]. split; auto.
      unfold quantile_row, quantile_of. rewrite (window_one conv split_ (vals g) i x Ex). cbn [filter]. destruct (valid x); cbn; auto. exists [x]. split; [split; [auto | repeat constructor] |]. exists x. auto.
    - rewrite Z.add_0_r in E. rewrite E. exists ws. split; auto. split.
      + rewrite Hm. simpl skipn. rewrite firstn_all. reflexivity.
      + intros i r Hk. apply (Hq i r); auto. apply nth_error_Some_lt in Hk. lia.
  Qed.
  Lemma roll_quantile_ok left k w g : 0 < g < n -> 0 <= k <= MULT -> 1 < w -> (forall i, length (left i) = Z.to_nat w) ->
    exists ws, roll_quantile src igroup ifirst ncount less valid uinv conv split_ left k w g = Some ws /\
    row_ok keys (quantile_row less valid uinv conv split_ (IntegralIndex k) (IndexIsIntegral k) w (vals g)) g ws.
  Proof.
    intros Hg K Wp LL. destruct (layout_bin n keys src ncount igroup ifirst lay g ltac:(lia)) as (f & Ef & Ec & F0 & Fb & Hr & Hs).
    unfold roll_quantile. rewrite Ef, Ec, Nat2Z.id. pose proof (index_ok_code k K) as IX. set (W := Z.to_nat w) in *. assert (W2 : (2 <= W)%nat) by lia.
    edestruct (roll_up keys igroup (fun j s => match src_at src igroup j with
         | Some x => match Update less valid uinv conv split_ (IntegralIndex k) (IndexIsIntegral k) W (IntegralIndex k W + 1) (W - (IntegralIndex k W + 1)) x s with Some (u, s') => Some (s', u) | None => None end
         | None => None end)
      (fun i s => exists ring, inv less valid (IntegralIndex k) W (firstn i (vals g)) s ring) (quantile_row less valid uinv conv split_ (IntegralIndex k) (IndexIsIntegral k) w (vals g)) g f Hr (length (rows g)) 0 (start_with (left g))) as (ws & s' & E & _ & Hm & Hq); auto.
    - cbn [firstn]. apply inv_start. apply LL.
    - intros i s Hi I. rewrite Hs by lia. destruct (vals_at g i ltac:(lia)) as (x & Ex). rewrite Ex.
      destruct (update_ok less valid uinv conv split_ (IntegralIndex k) (IndexIsIntegral k) W IX OK W2 _ _ x I) as (u & s2 & E2 & I2 & Q). rewrite E2. eexists _, _. split; [reflexivity |].
      rewrite <- (firstn_S_snoc (vals g) i x Ex) in I2, Q. split; auto. unfold quantile_row, window. fold W. unfold lastw in Q. pose proof (nth_error_Some_lt _ _ _ Ex). rewrite firstn_length_le in Q by lia. rewrite Nat.add_1_r. exact Q.
    - rewrite Z.add_0_r in E. rewrite E. exists ws. split; auto. split.
      + rewrite Hm. simpl skipn. rewrite firstn_all. reflexivity.
      + intros i r Hk. apply (Hq i r); auto. apply nth_error_Some_lt in Hk. lia.
  Qed.
  Lemma group_quantile_ok left k w low high out0 : 0 < n -> 0 <= low <= high -> high <= n -> length out0 = length keys ->
    0 <= k <= MULT -> 0 < w -> (forall i, length (left i) = Z.to_nat w) ->
    exists res, GroupByX (AccumRollingQuantile1e9Mult src igroup ifirst ncount less valid uinv conv split_ left (k + w * (MULT + 1))) low high out0 = Some res /\
      per_row uinv (quantile_row less valid uinv conv split_ (IntegralIndex k) (IndexIsIntegral k) w) low high keys src out0 res.
  Proof.
    intros Hn Hl Hh Lo K Wp LL. unfold AccumRollingQuantile1e9Mult. destruct (param_ok k w K Wp) as [-> ->]. cbv zeta. destruct (Z.leb_spec w 0); [lia |].
    eapply roll_call_ok; [exact lay | | auto..]. intros g Hg. destruct (Z.eqb_spec w 1) as [-> |]; [now apply roll_one_ok | apply roll_quantile_ok; auto; lia].
  Qed.
End Groups.

Lemma median_index n : (0 < n)%nat -> clear_index 500000000 n /\ exact_index 500000000 n = ((n - 1) / 2)%nat /\ exact_whole 500000000 n = Nat.odd n.
Proof.
  intros Hn. assert (E : exists m r, (n = 2 * m + 1 + r)%nat /\ (r = 0 \/ r = 1)%nat).
  { exists ((n - 1) / 2)%nat, ((n - 1) mod 2)%nat. pose proof (Nat.div_mod (n - 1) 2 ltac:(lia)). pose proof (Nat.mod_upper_bound (n - 1) 2 ltac:(lia)). lia. }
  destruct E as (m & r & -> & Hr). unfold clear_index, exact_index, exact_whole. cbv zeta.
  assert (D : (Z.of_nat (2 * m + 1 + r) - 1) * 500000000 = Z.of_nat m * MULT + Z.of_nat r * 500000000) by (unfold MULT; lia). rewrite !D.
  rewrite Z.add_comm, Z_mod_plus_full, Z.div_add by (unfold MULT; lia).
  destruct Hr as [-> | ->].
  - change (Z.of_nat 0 * 500000000 mod MULT) with 0. change (Z.of_nat 0 * 500000000 / MULT) with 0. split; [auto |]. split.
    + replace (2 * m + 1 + 0 - 1)%nat with (m * 2)%nat by lia. rewrite Nat.div_mul by lia. lia.
    + rewrite Nat.add_0_r, Nat.odd_add, Nat.odd_mul. reflexivity.
  - change (Z.of_nat 1 * 500000000 mod MULT) with 500000000. change (Z.of_nat 1 * 500000000 / MULT) with 0. split; [unfold MULT; lia |]. split.
    + replace (2 * m + 1 + 1 - 1)%nat with (1 + m * 2)%nat by lia. rewrite Nat.div_add by lia. cbn. lia.
    + rewrite <- Nat.add_assoc, Nat.odd_add, Nat.odd_mul. reflexivity.
Qed.
Lemma RollingQuantile_median {T U} (less : T -> T -> bool) (valid : T -> bool) (uinv : U) (conv : T -> U) (split_ : T -> T -> U) : order_ok valid less -> forall w l, 0 < w ->
  exists us, RollingQuantile less valid uinv conv split_ (500000000 + w * (MULT + 1)) l = QOk us /\ RollSpec.rolled (quantile_row less valid uinv conv split_ (fun n => ((n - 1) / 2)%nat) Nat.odd w l) l us.
Proof.
  intros OK w l Wp. destruct (RollingQuantile_exact less valid uinv conv split_ OK 500000000 w l) as (us & E & L & R); [unfold MULT; lia | auto | intros n Hn; apply median_index; lia |].
  exists us. split; auto. split; auto. intros i u H. specialize (R i u H). unfold quantile_row in *. eapply quantile_ext; [| exact R]. intros n Hn. destruct (median_index n ltac:(lia)) as (_ & -> & ->). auto.
Qed.
Lemma near_refuted :
  exists k l us u, 0 <= k <= MULT /\ RollingQuantile Z.ltb ok64 INV64 (fun x => 2 * x) Z.add (k + 2 * (MULT + 1)) l = QOk us /\
    nth_error us 1 = Some u /\ ~ quantile_row Z.ltb ok64 INV64 (fun x => 2 * x) Z.add (exact_index k) (exact_whole k) 2 l 1 u.
Proof.
  exists 500000, [0; 10], [0; 0], 0. split; [unfold MULT; lia |]. split; [vm_compute; reflexivity |]. split; [reflexivity |].
  unfold quantile_row, quantile_of. change (filter ok64 (window 2 1 [0; 10])) with [0; 10]. change (length [0; 10]) with 2%nat. change (exact_whole 500000 2) with false. change (exact_index 500000 2) with 0%nat. cbn [Nat.eqb].
  intros (s & [P _] & a & b & Ha & Hb & E). destruct s as [| c [| d [| ]]]; try discriminate. injection Ha as ->. injection Hb as ->. 
  assert (a = 0 /\ b = 10 \/ a = 10 /\ b = 0) as [[-> ->] | [-> ->]].
  { apply Permutation_sym in P || idtac. apply Permutation_length_2_inv in P || (apply Permutation_sym in P; apply Permutation_length_2_inv in P). destruct P as [P | P]; injection P as -> ->; auto. }
  1, 2: lia.
  apply Permutation_length in P. discriminate.
Qed.
