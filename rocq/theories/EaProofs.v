(** Proofs about EmaAll32: running sums, products, counts and extremes of typed columns. *)
From Coq Require Import Reals.
From Verif Require Import Base Mem MemLemmas AccumSpec EmaModel EmaSpec EmaProofs AllModel AllSpec AllProofs All2Proofs All3Proofs All4Proofs All5Proofs EaModel EaSpec.
Local Open Scope Z_scope.

(** ** Rows *)
Lemma by_group_imp {D} low keys (other : option D) (P Q : nat -> D -> Prop) out :
  by_group low keys other P out -> (forall i d, nth_error out i = Some (Some d) -> P i d -> Q i d) -> by_group low keys other Q out.
Proof.
  intros (L & H) HI. split; [exact L|]. intros i k Ek. specialize (H i k Ek). destruct (k <? low); [exact H|].
  destruct H as (d & Ed & Pd). exists d. auto.
Qed.
Lemma by_group_map {D E} (f : D -> E) low keys other (P : nat -> D -> Prop) out :
  by_group low keys other P out -> by_group low keys (option_map f other) (fun i v => exists d, v = f d /\ P i d) (map (option_map f) out).
Proof.
  intros (L & H). split; [now rewrite map_length|]. intros i k Ek. specialize (H i k Ek). rewrite nth_error_map. destruct (k <? low); [now rewrite H|].
  destruct H as (d & -> & Pd). exists (f d). split; [reflexivity|eauto].
Qed.
Lemma picked_in {X} (src : list X) rows vs v : picked src rows vs -> In v vs -> In v src.
Proof.
  unfold picked. revert vs. induction rows as [|r rows IH]; intros [|w vs] E Hv; try discriminate E; [destruct Hv|].
  cbn [map] in E. injection E as E1 E2. destruct Hv as [<- | Hv]; [now apply nth_error_In in E1|]. eapply IH; eauto.
Qed.
Lemma run_row_imp {T D} keys (src : list T) im rm (P Q : list T -> D -> Prop) i d :
  run_row keys src im rm P i d -> (forall vs, (forall v, In v vs -> In v src) -> P vs d -> Q vs d) -> run_row keys src im rm Q i d.
Proof. intros H HI k Ek. destruct (H k Ek) as (s & vs & H1 & H2 & H3). exists s, vs. split; [exact H1|]. split; [exact H2|]. apply HI; [|exact H3]. intros v. now apply picked_in with s. Qed.

Lemma by_rows_values {W D} guard other (body : nat -> W -> option (W * D)) (Pw : W -> Prop) (Pd : D -> Prop) :
  (forall i w p, Pw w -> body i w = Some p -> Pw (fst p) /\ Pd (snd p)) -> (forall d, other = Some d -> Pd d) ->
  forall keys i ws out, Forall Pw ws -> by_rows guard other body keys i ws = Some out -> forall j d, nth_error out j = Some (Some d) -> Pd d.
Proof.
  intros HB HO. induction keys as [|k keys IH]; intros i ws out HW E j d Ej; cbn [by_rows] in E.
  - injection E as <-. destruct j; discriminate Ej.
  - destruct (guard && (k <? 1)).
    + destruct (by_rows guard other body keys (S i) ws) as [r|] eqn:Er; [|discriminate E]. injection E as <-. destruct j as [|j]; cbn [nth_error] in Ej; [injection Ej as Ej; auto|eauto].
    + destruct (zrd ws k) as [w|] eqn:Ew; [|discriminate E]. cbn in E. destruct (body i w) as [p|] eqn:Eb; [|discriminate E]. cbn in E.
      destruct (zwr ws k (fst p)) as [ws2|] eqn:E2; [|discriminate E]. cbn in E. destruct (by_rows guard other body keys (S i) ws2) as [r|] eqn:Er; [|discriminate E]. injection E as <-.
      assert (Hw : Pw w). { unfold zrd in Ew. destruct (0 <=? k); [|discriminate Ew]. apply nth_error_In in Ew. rewrite Forall_forall in HW. auto. }
      destruct (HB i w p Hw Eb) as (HP & HD).
      destruct j as [|j]; cbn [nth_error] in Ej; [now injection Ej as <-|]. apply (IH (S i) ws2 r) with j; [|exact Er|exact Ej].
      unfold zwr in E2. destruct (0 <=? k); [|discriminate E2]. destruct (k <? Z.of_nat (length ws)); [|discriminate E2]. cbn in E2. injection E2 as <-.
      clear - HW HP. generalize (Z.to_nat k). revert ws HW. induction ws as [|x ws IH]; intros HW n; [destruct n; constructor|]. inversion HW; subst. destruct n; cbn [upd]; constructor; auto.
Qed.
Lemma Forall_repeat {X} (P : X -> Prop) x n : P x -> Forall P (repeat x n).
Proof. intros H. induction n; cbn; constructor; auto. Qed.
Ltac body_values := let E := fresh "E" in intros i w p Hw E; cbn in E;
  repeat match type of E with
  | context [nth_error ?l ?i] => let x := fresh "x" in let Ex := fresh "Ex" in destruct (nth_error l i) as [x|] eqn:Ex; [|discriminate E]; cbn in E
  | context [if ?b then _ else _] => is_var b; destruct b; cbn in E
  end; try discriminate E; injection E as <-; cbn [fst snd].
Lemma nan_values {T} keys (src : list T) n im rm inv valid compare res :
  CumNanExtreme keys src n im rm inv valid compare = Some res -> forall j d, nth_error res j = Some (Some d) -> d = inv \/ In d src.
Proof.
  unfold CumNanExtreme. set (P := fun d => d = inv \/ In d src).
  assert (TK : forall i w x, P w -> nth_error src i = Some x -> P (nan_take valid compare w x)).
  { intros i w x Hw Ex. apply nth_error_In in Ex. unfold nan_take. destruct (valid x); [|exact Hw]. destruct (negb (valid w) || compare x w); [now right|exact Hw]. }
  intros E. assert (B : Forall P (bins n inv)) by (apply Forall_repeat; now left).
  destruct im as [il|], rm as [rl|]; eapply (by_rows_values _ _ _ P P); try exact E; try exact B; try discriminate; body_values; auto;
    try (split; eapply TK; eauto); try (apply nth_error_In in Ex1; split; right; assumption); try (apply nth_error_In in Ex0; split; right; assumption).
Qed.
Lemma full_values {T} keys (src : list T) n im rm inv valid compare res :
  CumExtreme keys src n im rm inv valid compare = Some res -> forall j d, nth_error res j = Some (Some d) -> d = inv \/ In d src.
Proof.
  unfold CumExtreme. set (P := fun d => d = inv \/ In d src). set (Pw := fun w : T * bool => P (fst w)).
  assert (TK : forall i r w x, Pw w -> nth_error src i = Some x -> Pw (ext_take valid compare r w x)).
  { intros i r w x Hw Ex. apply nth_error_In in Ex. unfold ext_take. destruct (r || negb (snd w)); [now right|]. destruct (negb (valid x) || _); [now right|exact Hw]. }
  intros E. assert (B : Forall Pw (bins n (inv, false))) by (apply Forall_repeat; now left).
  destruct im as [il|], rm as [rl|]; eapply (by_rows_values _ _ _ Pw P); try exact E; try exact B; try discriminate; intros i w p Hw E0; cbn in E0.
  - destruct (nth_error il i) as [[|]|]; [|injection E0 as <-; auto|discriminate E0]. cbn in E0. destruct (nth_error rl i); [|discriminate E0]. cbn in E0.
    destruct (nth_error src i) eqn:Ex; [|discriminate E0]. cbn in E0. injection E0 as <-. cbn [fst snd]. split; apply (TK _ _ _ _ Hw Ex).
  - destruct (nth_error il i) as [[|]|]; [|injection E0 as <-; auto|discriminate E0]. cbn in E0.
    destruct (nth_error src i) eqn:Ex; [|discriminate E0]. cbn in E0. injection E0 as <-. cbn [fst snd]. split; apply (TK _ _ _ _ Hw Ex).
  - destruct (nth_error rl i); [|discriminate E0]. cbn in E0.
    destruct (nth_error src i) eqn:Ex; [|discriminate E0]. cbn in E0. injection E0 as <-. cbn [fst snd]. split; apply (TK _ _ _ _ Hw Ex).
  - destruct (nth_error src i) eqn:Ex; [|discriminate E0]. cbn in E0. injection E0 as <-. cbn [fst snd]. split; apply (TK _ _ _ _ Hw Ex).
Qed.

(** ** Extremes with another test and order that agree on the values *)
Section Ext.
  Context {T : Type} (valid valid' : T -> bool) (cmp cmp' : T -> T -> bool) (vs : list T) (d : T).
  Context (HV : forall v, v = d \/ In v vs -> valid v = valid' v) (HC : forall v w, v = d \/ In v vs -> w = d \/ In w vs -> cmp v w = cmp' v w).
  Lemma extreme_ext l : (forall v, In v l -> In v vs) -> extreme_of cmp l d -> extreme_of cmp' l d.
  Proof. intros HL (H1 & H2). split; [exact H1|]. intros y Hy. rewrite <- HC; auto. Qed.
  Lemma filter_ext_vs : filter valid vs = filter valid' vs.
  Proof. apply filter_ext_in. intros v Hv. apply HV. now right. Qed.
  Lemma forallb_ext_vs : forallb valid vs = forallb valid' vs.
  Proof. clear HC. induction vs as [|x l IH]; [reflexivity|]. cbn. rewrite IH, HV; [reflexivity|right; now left|]. intros v [Hv | Hv]; apply HV; [now left|right; now right]. Qed.
  Lemma nan_ext : nan_extreme valid cmp vs d -> nan_extreme valid' cmp' vs d.
  Proof.
    unfold nan_extreme. rewrite <- filter_ext_vs. destruct (filter valid vs) as [|x l] eqn:E.
    - rewrite HV; auto.
    - apply extreme_ext. intros v Hv. rewrite <- E in Hv. now apply filter_In in Hv.
  Qed.
  Lemma full_ext : full_extreme valid cmp vs d -> full_extreme valid' cmp' vs d.
  Proof.
    unfold full_extreme. rewrite <- forallb_ext_vs. destruct vs as [|x l] eqn:E; [rewrite HV; auto|]. rewrite <- E in *. destruct (forallb valid vs).
    - apply extreme_ext. auto.
    - rewrite HV; auto.
  Qed.
End Ext.

(** ** Values of the type of their column *)
Section Typed.
  Context {F : Type} (A : arith F) (AO : arith_ok A).

  Lemma float_stored d T : stored d = Some T -> int_type d = None -> floating d = true /\ T = format d.
  Proof.
    unfold stored, int_type. destruct d as [|p|p]; try discriminate. do 4 (destruct p as [p|p|]; try discriminate); intros [= <-]; try discriminate; intros _; split; reflexivity.
  Qed.
  Lemma int_not_float d x : int_type d = Some x -> floating d = false.
  Proof. unfold int_type. destruct d as [|p|p]; try discriminate; [reflexivity|]. do 4 (destruct p as [p|p|]; try discriminate; try reflexivity). Qed.
  Lemma elements_typed d T (vs : list (num F)) v : stored d = Some T -> elements_ok d vs -> In v vs -> of_type d v.
  Proof.
    intros HT. unfold elements_ok, of_type. destruct (int_type d) as [((lo, hi), mis)|] eqn:E.
    - intros (zs & -> & H) Hv. apply in_map_iff in Hv as (z & <- & Hz). rewrite Forall_forall in H. left. auto.
    - destruct (float_stored d T HT E) as (Fl & _). intros H Hv. destruct (H Fl) as (xs & ->). apply in_map_iff in Hv as (x & <- & _). exact Logic.I.
  Qed.
  Lemma inval_typed d T : stored d = Some T -> of_type d (inval A T).
  Proof.
    intros HT. unfold of_type. destruct (int_type d) as [((lo, hi), mis)|] eqn:E.
    - destruct (int_facts d lo hi mis T E HT) as (N & _ & <- & _). destruct T as [b|b|b]; cbn [inval]; [now right|now right|]. exfalso. now apply (N b).
    - destruct (float_stored d T HT E) as (Fl & ->). unfold format. destruct (d =? 11); [exact Logic.I|]. destruct (d =? 13); exact Logic.I.
  Qed.
  Lemma valid_agrees d T v : stored d = Some T -> of_type d v -> ok A T v = valid_of A d v.
  Proof.
    intros HT. unfold of_type, valid_of. destruct v as [z|x], (int_type d) as [((lo, hi), mis)|] eqn:E; try contradiction.
    - destruct (int_facts d lo hi mis T E HT) as (N & W & HI & _). intros [Hz | ->]; [now apply (ok_int A T lo hi mis)|].
      rewrite Z.eqb_refl. pose proof (inval_bad A AO T (stored_sized d T HT)) as B. destruct T as [b|b|b]; cbn [inval] in B; [..|exfalso; now apply (N b)]; now rewrite HI in B.
    - intros _. destruct (float_stored d T HT E) as (_ & ->). unfold format. destruct (d =? 11); [reflexivity|]. destruct (d =? 13); reflexivity.
  Qed.
  Lemma below_agrees d T v w : stored d = Some T -> of_type d v -> of_type d w -> less A T v w = below A v w.
  Proof.
    intros HT. unfold of_type, below. destruct (int_type d) as [((lo, hi), mis)|] eqn:E.
    - destruct (int_facts d lo hi mis T E HT) as (N & _). destruct v, w; try contradiction. intros _ _. destruct T as [b|b|b]; [reflexivity..|]. exfalso. now apply (N b).
    - destruct (float_stored d T HT E) as (_ & ->). destruct v, w; try contradiction. intros _ _. unfold format. destruct (d =? 11); [reflexivity|]. destruct (d =? 13); reflexivity.
  Qed.

  (** sums and products *)
  Definition wide (d : Z) : ctype := if floating d then format d else if unsigned d then CU 8 else CI 8.
  Lemma inval_wide d : inval A (wide d) = none_of A d.
  Proof. unfold wide, none_of. destruct (floating d). { unfold format. destruct (d =? 11); [reflexivity|]. destruct (d =? 13); reflexivity. } destruct (unsigned d); reflexivity. Qed.
  Lemma sums_right d T vs r : stored d = Some T -> (forall v, In v vs -> of_type d v) -> op_of (conv A (wide d)) (zero_of A (wide d)) (add A (wide d)) vs r -> sum_of A d vs r.
  Proof.
    intros HT HV ->. unfold sum_of, wide. destruct (int_type d) as [((lo, hi), mis)|] eqn:E.
    - rewrite (int_not_float d _ E).
      assert (Hz : exists zs, vs = map I zs).
      { clear - HV E. induction vs as [|v vs IH]; [now exists []|]. destruct IH as (zs & ->); [intros; apply HV; now right|]. specialize (HV v (or_introl eq_refl)). unfold of_type in HV. rewrite E in HV.
        destruct v as [z|]; [|contradiction]. now exists (z :: zs). }
      destruct Hz as (zs & ->). exists zs. eexists. split; [reflexivity|]. split; [|apply wrap_sum64]. unfold total.
      replace (zero_of A (if unsigned d then CU 8 else CI 8)) with (@I F 0) by (destruct (unsigned d); reflexivity).
      rewrite total_int; [now rewrite Z.add_0_l|destruct (unsigned d); cbn; lia|destruct (unsigned d); discriminate|destruct (unsigned d); reflexivity].
    - destruct (float_stored d T HT E) as (Fl & _). rewrite Fl.
      assert (Hx : exists xs, vs = map R xs).
      { clear - HV E. induction vs as [|v vs IH]; [now exists []|]. destruct IH as (xs & ->); [intros; apply HV; now right|]. specialize (HV v (or_introl eq_refl)). unfold of_type in HV. rewrite E in HV.
        destruct v as [|x]; [contradiction|]. now exists (x :: xs). }
      destruct Hx as (xs & ->). exists xs. split; [reflexivity|]. unfold total. assert (exists b, format d = CF b) as (b & ->).
      { unfold format. destruct (d =? 11); [eauto|]. destruct (d =? 13); eauto. }
      cbn [zero_of]. generalize (fzero A (CF b)). clear. induction xs as [|x xs IH]; intros s; [reflexivity|]. cbn [map fold_left]. apply (IH (fadd A (CF b) s (cast A (CF b) x))).
  Qed.
  Lemma wrapT_mul U a b : sized U -> wrapT U (wrapT U a * wrapT U b) = wrapT U (a * b).
  Proof.
    intros HU. destruct U as [n|n|n]; cbn [wrapT sized] in *; [| |reflexivity].
    - assert (P : 2 ^ (8 * n) <> 0) by (apply Z.pow_nonzero; lia). set (M := 2 ^ (8 * n)) in *. set (h := 2 ^ (8 * n - 1)) in *. f_equal.
      assert (G : forall x, ((x + h) mod M - h) mod M = x mod M). { intros x. rewrite Zminus_mod_idemp_l. f_equal. lia. }
      rewrite <- (Z.add_mod_idemp_l _ h), <- (Z.add_mod_idemp_l (a * b) h) by exact P. f_equal. f_equal. rewrite Z.mul_mod, !G, <- Z.mul_mod by exact P. reflexivity.
    - assert (P : 2 ^ (8 * n) <> 0) by (apply Z.pow_nonzero; lia). now rewrite <- Z.mul_mod.
  Qed.
  Lemma product_int U : sized U -> (forall b, U <> CF b) -> forall (zs : list Z) s, wrapT U s = s ->
    fold_left (fun s x => prod A U s (conv A U x)) (map (@I F) zs) (I s) = I (wrapT U (s * fold_right Z.mul 1 zs)).
  Proof.
    intros HU HN. induction zs as [|z zs IH]; intros s Hs; cbn [map fold_left fold_right]; [rewrite Z.mul_1_r, Hs; reflexivity|].
    assert (E : prod A U (I s) (conv A U (I z)) = I (wrapT U (s * z))).
    { rewrite <- Hs at 1. destruct U as [b|b|b]; [..|exfalso; eapply HN; eauto]; cbn [prod conv zval]; now rewrite wrapT_mul. }
    rewrite E, IH by now apply wrapT_idem.
    f_equal. rewrite <- wrapT_mul, wrapT_idem, wrapT_mul by exact HU. f_equal. lia.
  Qed.
  Lemma products_right d T vs r : stored d = Some T -> (forall v, In v vs -> of_type d v) -> op_of (conv A (wide d)) (one_of A (wide d)) (prod A (wide d)) vs r -> product_of A d vs r.
  Proof.
    intros HT HV ->. unfold product_of, wide. destruct (int_type d) as [((lo, hi), mis)|] eqn:E.
    - rewrite (int_not_float d _ E).
      assert (Hz : exists zs, vs = map I zs).
      { clear - HV E. induction vs as [|v vs IH]; [now exists []|]. destruct IH as (zs & ->); [intros; apply HV; now right|]. specialize (HV v (or_introl eq_refl)). unfold of_type in HV. rewrite E in HV.
        destruct v as [z|]; [|contradiction]. now exists (z :: zs). }
      destruct Hz as (zs & ->). exists zs. eexists. split; [reflexivity|]. unfold total.
      replace (one_of A (if unsigned d then CU 8 else CI 8)) with (@I F 1) by (destruct (unsigned d); reflexivity).
      rewrite product_int; [|destruct (unsigned d); cbn; lia|destruct (unsigned d); discriminate|destruct (unsigned d); reflexivity].
      split; [reflexivity|]. rewrite Z.mul_1_l. unfold product64. split.
      + destruct (unsigned d); (exact (wrapT_div (CU 8) _ (eq_refl : sized (CU 8)) ltac:(discriminate)) || exact (wrapT_div (CI 8) _ (eq_refl : sized (CI 8)) ltac:(discriminate))).
      + destruct (unsigned d); cbn [wrapT]; change (8 * 8) with 64; change (64 - 1) with 63.
        * apply Z.mod_pos_bound. lia.
        * pose proof (Z.mod_pos_bound (fold_right Z.mul 1 zs + 2 ^ 63) (2 ^ 64) ltac:(lia)). lia.
    - destruct (float_stored d T HT E) as (Fl & _). rewrite Fl.
      assert (Hx : exists xs, vs = map R xs).
      { clear - HV E. induction vs as [|v vs IH]; [now exists []|]. destruct IH as (xs & ->); [intros; apply HV; now right|]. specialize (HV v (or_introl eq_refl)). unfold of_type in HV. rewrite E in HV.
        destruct v as [|x]; [contradiction|]. now exists (x :: xs). }
      destruct Hx as (xs & ->). exists xs. split; [reflexivity|]. unfold total. assert (exists b, format d = CF b) as (b & ->).
      { unfold format. destruct (d =? 11); [eauto|]. destruct (d =? 13); eauto. }
      cbn [one_of]. generalize (of_int A (CF b) 1). clear. induction xs as [|x xs IH]; intros s; [reflexivity|]. cbn [map fold_left]. apply (IH (fmul A (CF b) s (cast A (CF b) x))).
  Qed.
End Typed.
