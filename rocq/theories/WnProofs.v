(** Proofs about TimeWindow: from its arguments to its results. *)
From Coq Require Import Reals.
From Verif Require Import Base Mem MemLemmas AccumSpec EmaModel AllModel AllSpec AllProofs All2Proofs All4Proofs All5Proofs EaModel EaSpec EaProofs Ea2Proofs WnModel WnSpec.
From Verif Require CalcModel CalcSpec CalcProofs.
Local Open Scope Z_scope.

(** ** The rows of a window *)
Lemma members_window times delta i lo : (i < length times)%nat -> CalcSpec.window_of times delta i lo -> members times delta i = seq lo (S i - lo).
Proof.
  intros Hi (Ll & Hw). unfold members. destruct (nth_error_lt times i Hi) as (ti & Ei). rewrite (nth_error_nth times i 0 Ei).
  replace (seq 0 (S i)) with (seq 0 lo ++ seq lo (S i - lo)) by (rewrite <- seq_app; f_equal; lia).
  assert (G : forall j, (j < i)%nat -> ((lo <= j)%nat <-> ti - nth j times 0 <= delta)).
  { intros j Hj. destruct (nth_error_lt times j ltac:(lia)) as (tj & Ej). rewrite (nth_error_nth times j 0 Ej). now apply Hw. }
  apply CalcProofs.filter_tail.
  - intros j Hj. apply in_seq in Hj. destruct (Nat.eqb_spec j i); [lia|]. cbn [orb]. apply Z.leb_gt. specialize (G j ltac:(lia)). lia.
  - intros j Hj. apply in_seq in Hj. destruct (Nat.eqb_spec j i); [reflexivity|]. cbn [orb]. apply Z.leb_le. apply G; lia.
Qed.
Lemma nths_seq {X} (z : X) (l : list X) lo : forall n, (lo + n <= length l)%nat -> map (fun j => nth j l z) (seq lo n) = firstn n (skipn lo l).
Proof.
  revert lo. intros lo n. revert lo. induction n as [|n IH]; intros lo H; [reflexivity|]. cbn [seq map]. rewrite IH by lia.
  destruct (nth_error_lt l lo ltac:(lia)) as (x & Ex). rewrite (nth_error_nth l lo z Ex).
  assert (skipn lo l = x :: skipn (S lo) l) as ->; [|reflexivity]. clear - Ex. revert lo Ex. induction l as [|y l IH]; intros [|lo] E; cbn in *; try discriminate; [now injection E as ->|]. now apply IH.
Qed.
Lemma members_values {X} (z x : X) (vs : list X) times delta i lo : length times = length vs -> nth_error vs i = Some x -> CalcSpec.window_of times delta i lo ->
  map (fun j => nth j vs z) (members times delta i) = firstn (i - lo) (skipn lo vs) ++ [x].
Proof.
  intros L Ex W. assert (Hi : (i < length vs)%nat) by (eapply nth_error_Some_lt; eauto). rewrite (members_window _ _ _ lo) by (lia || auto). destruct W as (Ll & _).
  rewrite nths_seq by lia. replace (S i - lo)%nat with (S (i - lo)) by lia. apply firstn_S_snoc. rewrite nth_error_skipn, <- Ex. f_equal. lia.
Qed.

Lemma sum_rev l : fold_right Z.add 0 (rev l) = fold_right Z.add 0 l.
Proof. induction l as [|x l IH]; [reflexivity|]. cbn [rev fold_right]. change (fold_right Z.add 0) with CalcSpec.zsum in *. rewrite CalcProofs.zsum_app, IH. cbn. lia. Qed.
Lemma prod_rev l : fold_right Z.mul 1 (rev l) = fold_right Z.mul 1 l.
Proof. induction l as [|x l IH]; [reflexivity|]. cbn [rev]. change (fold_right Z.mul 1) with CalcSpec.zprod in *. rewrite CalcProofs.zprod_app, IH. cbn [CalcSpec.zprod fold_right]. change (fold_right Z.mul 1 l) with (CalcSpec.zprod l). ring. Qed.

Section Time.
  Context {F : Type} (A : arith F).

  Lemma all_ints d x (vs : list (num F)) : int_type d = Some x -> (forall v, In v vs -> of_type d v) -> exists zs, vs = map I zs.
  Proof.
    intros E HV. induction vs as [|v vs IH]; [now exists []|]. destruct IH as (zs & ->); [intros; apply HV; now right|]. specialize (HV v (or_introl eq_refl)). unfold of_type in HV. rewrite E in HV.
    destruct v as [z|]; [now exists (z :: zs)|]. now destruct x as ((lo, hi), mis).
  Qed.
  Lemma all_floats d (vs : list (num F)) : int_type d = None -> (forall v, In v vs -> of_type d v) -> exists xs, vs = map R xs.
  Proof.
    intros E HV. induction vs as [|v vs IH]; [now exists []|]. destruct IH as (xs & ->); [intros; apply HV; now right|]. specialize (HV v (or_introl eq_refl)). unfold of_type in HV. rewrite E in HV.
    destruct v as [|x]; [contradiction|]. now exists (x :: xs).
  Qed.
  Lemma format_float d : exists b, format d = CF b.
  Proof. unfold format. destruct (d =? 11); [eauto|]. destruct (d =? 13); eauto. Qed.
  Lemma product64_wrap d zs : product64 d zs (wrapT (if unsigned d then CU 8 else CI 8) (fold_right Z.mul 1 zs)).
  Proof.
    unfold product64. split.
    - destruct (unsigned d); (exact (wrapT_div (CU 8) _ (eq_refl : sized (CU 8)) ltac:(discriminate)) || exact (wrapT_div (CI 8) _ (eq_refl : sized (CI 8)) ltac:(discriminate))).
    - destruct (unsigned d); cbn [wrapT]; change (8 * 8) with 64; change (64 - 1) with 63.
      + apply Z.mod_pos_bound. lia.
      + pose proof (Z.mod_pos_bound (fold_right Z.mul 1 zs + 2 ^ 63) (2 ^ 64) ltac:(lia)). lia.
  Qed.

  (** the values of a window, from the last to the first *)
  Lemma combined_right func f d T vs (x : num F) : stored d = Some T -> window_fun func = Some f -> (forall v, In v (vs ++ [x]) -> of_type d v) ->
    combined A func d (vs ++ [x]) (fold_left (window_op A f (wide d)) (rev vs) (conv A (wide d) x)).
  Proof.
    intros HT HF HV. unfold combined, wide.
    assert (E01 : (f = WSum /\ func = 0) \/ (f = WProd /\ func = 1)).
    { destruct func as [|[p|p|]|p]; cbn in HF; try discriminate; injection HF as <-; auto. }
    destruct (int_type d) as [t|] eqn:E.
    - rewrite (int_not_float d _ E). destruct (all_ints d t _ E HV) as (zs & Ez). destruct (exists_last (l := zs)) as (zs' & z & ->).
      { intros ->. now destruct vs. }
      rewrite map_app in Ez. cbn [map] in Ez. apply app_inj_tail in Ez as (-> & ->). exists (zs' ++ [z]). rewrite <- map_rev. set (U := if unsigned d then CU 8 else CI 8).
      assert (HU : sized U) by (unfold U; destruct (unsigned d); cbn; lia). assert (HN : forall b, U <> CF b) by (unfold U; destruct (unsigned d); discriminate).
      assert (HC : conv A U (I z) = I (wrapT U z)) by (unfold U; now destruct (unsigned d)). rewrite HC.
      destruct E01 as [(-> & ->) | (-> & ->)].
      + change (window_op A WSum U) with (fun s x : num F => add A U s (conv A U x)). rewrite total_int by (auto; now apply wrapT_idem). eexists. split; [now rewrite map_app|]. split; [reflexivity|]. change (0 =? 0) with true. cbn iota.
        rewrite wrapT_add by exact HU. rewrite sum_rev. replace (z + fold_right Z.add 0 zs') with (fold_right Z.add 0 (zs' ++ [z])).
        2:{ change (fold_right Z.add 0) with CalcSpec.zsum. rewrite CalcProofs.zsum_app. cbn. lia. }
        apply wrap_sum64.
      + change (window_op A WProd U) with (fun s x : num F => prod A U s (conv A U x)). rewrite product_int by (auto; now apply wrapT_idem). eexists. split; [now rewrite map_app|]. split; [reflexivity|]. change (1 =? 0) with false. cbn iota.
        rewrite prod_rev. rewrite <- (wrapT_mul U (wrapT U z)), wrapT_idem, wrapT_mul by exact HU. replace (z * fold_right Z.mul 1 zs') with (fold_right Z.mul 1 (zs' ++ [z])).
        2:{ change (fold_right Z.mul 1) with CalcSpec.zprod. rewrite CalcProofs.zprod_app. cbn [CalcSpec.zprod fold_right]. ring. }
        apply product64_wrap.
    - destruct (float_stored d T HT E) as (Fl & _). rewrite Fl. destruct (all_floats d _ E HV) as (xs & Ex). destruct (exists_last (l := xs)) as (xs' & y & ->).
      { intros ->. now destruct vs. }
      rewrite map_app in Ex. cbn [map] in Ex. apply app_inj_tail in Ex as (-> & ->). exists (xs' ++ [y]). split; [now rewrite map_app|]. rewrite rev_app_distr. cbn [rev app]. rewrite <- map_rev.
      destruct (format_float d) as (b & ->). cbn [conv]. generalize (cast A (CF b) y) (rev xs'). intros s l. clear - E01. revert s.
      induction l as [|v l IH]; intros s; [reflexivity|]. cbn [map fold_left]. destruct E01 as [(-> & ->) | (-> & ->)]; cbn [window_op add prod conv fval]; apply IH.
  Qed.

  Lemma window_types d : 0 <= d <= 13 -> exists T, stored d = Some T /\ window_type d = Some (T, wide d, time_dtype d) /\ holds_type d T = true /\ holds_type (time_dtype d) (wide d) = true.
  Proof. intros H. assert (C : In d [0; 1; 2; 3; 4; 5; 6; 7; 8; 9; 10; 11; 12; 13]) by (cbn; lia). cbn [In] in C. repeat (destruct C as [<- | C]; [eexists; repeat split; reflexivity|]). contradiction. Qed.

  Theorem time_window_right ord thr (a : arg (num F)) (t : arg Z) func delta :
    fair ord -> numbers a -> gapless a -> times_given (a_len a) t -> gapless t -> CalcSpec.sorted_times (arg_vals 0 t) -> CalcSpec.close_times (arg_vals 0 t) ->
    In func [0; 1] -> - 2 ^ 63 <= delta < 2 ^ 63 ->
    exists out, TimeWindow A ord thr a t func delta = Done (Some (time_dtype (a_dtype a), out)) /\
      every_row (time_row A func (a_dtype a) (arg_vals (I 0) a) (arg_vals 0 t) delta) (a_len a) out.
  Proof.
    intros HO (HD & HN & OK & HE) GA (TD & TK) GT HS HC HF HI. unfold TimeWindow.
    assert (int64_ok func = true) as -> by (cbn [In] in HF; destruct HF as [<- | [<- | []]]; reflexivity).
    assert (int64_ok delta = true) as -> by (unfold int64_ok; rewrite (proj2 (Z.leb_le _ _)), (proj2 (Z.ltb_lt _ _)) by lia; reflexivity). cbn [andb negb].
    rewrite (proj1 TK), Z.eqb_refl. cbn [negb]. assert ((a_dtype t =? 7) || (a_dtype t =? 9) = true) as -> by (cbn [In] in TD; destruct TD as [<- | [<- | []]]; reflexivity). cbn [negb].
    destruct (window_types _ HD) as (T & HT & -> & -> & ->). cbn [andb].
    assert (exists f, window_fun func = Some f) as (f & Ef) by (cbn [In] in HF; destruct HF as [<- | [<- | []]]; eexists; reflexivity). rewrite Ef.
    rewrite (read_arg_right (I 0) _ a HN OK GA), (read_arg_right 0 _ t HN TK GT). cbn [undef obind]. set (vs := arg_vals (I 0) a) in *. set (ts := arg_vals 0 t) in *.
    assert (LV : length vs = Z.to_nat (a_len a)) by now apply arg_vals_length. assert (LT : length ts = Z.to_nat (a_len a)) by now apply arg_vals_length.
    destruct (CalcProofs.TimeWindow_ok (conv A (wide (a_dtype a))) (window_op A f (wide (a_dtype a))) vs ts delta ltac:(lia) HS HC ord thr (zero_of A (wide (a_dtype a))) HO) as (r & -> & Lr & Hr).
    cbn [undef obind]. exists r. split; [reflexivity|]. split; [lia|]. intros i y Ey. destruct (Hr i y Ey) as (lo & x & W & Ex & ->). unfold time_row.
    rewrite (members_values (I 0) x vs ts delta i lo) by (auto; lia). apply (combined_right func f _ T); auto. intros v Hv. apply (elements_typed _ T vs); auto.
    apply in_app_or in Hv as [Hv | [<- | []]]; [|now apply nth_error_In in Ex]. apply In_nth_error in Hv as (j & Ej). apply nth_error_In with (n := (lo + j)%nat).
    rewrite <- nth_error_skipn. rewrite nth_error_firstn in Ej. now destruct (j <? i - lo)%nat.
  Qed.

  (** what is refused, and what gives None *)
  Lemma window_refused ord thr (a : arg (num F)) (t : arg Z) func delta :
    ~ (- 2 ^ 63 <= func < 2 ^ 63) \/ ~ (- 2 ^ 63 <= delta < 2 ^ 63) \/ a_len a <> a_len t \/ ~ In (a_dtype t) [7; 9] -> TimeWindow A ord thr a t func delta = Error.
  Proof.
    intros H. unfold TimeWindow. destruct (int64_ok func && int64_ok delta) eqn:E; [|reflexivity]. apply andb_prop in E as (E1 & E2). unfold int64_ok in E1, E2. apply andb_prop in E1 as (E1 & E1'). apply andb_prop in E2 as (E2 & E2').
    apply Z.leb_le in E1, E2. apply Z.ltb_lt in E1', E2'. cbn [negb]. destruct (Z.eqb_spec (a_len a) (a_len t)) as [L|]; [|reflexivity]. cbn [negb].
    destruct H as [H | [H | [H | H]]]; [lia|lia|contradiction|]. destruct (Z.eqb_spec (a_dtype t) 7) as [Q|]; [exfalso; apply H; rewrite Q; cbn; auto|]. destruct (Z.eqb_spec (a_dtype t) 9) as [Q|]; [exfalso; apply H; rewrite Q; cbn; auto|]. reflexivity.
  Qed.
  Lemma window_type_none d : ~ 0 <= d <= 13 -> window_type d = None.
  Proof. destruct d as [|p|p]; [lia| |reflexivity]. intros H. do 4 (try (destruct p as [p|p|]); try reflexivity; try (exfalso; lia)). Qed.
  Lemma window_none ord thr (a : arg (num F)) (t : arg Z) func delta : - 2 ^ 63 <= func < 2 ^ 63 -> - 2 ^ 63 <= delta < 2 ^ 63 -> a_len t = a_len a -> In (a_dtype t) [7; 9] ->
    ~ In func [0; 1] \/ ~ 0 <= a_dtype a <= 13 -> TimeWindow A ord thr a t func delta = Done None.
  Proof.
    intros HF HI HL TD H. unfold TimeWindow.
    assert (int64_ok func = true) as -> by (unfold int64_ok; rewrite (proj2 (Z.leb_le _ _)), (proj2 (Z.ltb_lt _ _)) by lia; reflexivity).
    assert (int64_ok delta = true) as -> by (unfold int64_ok; rewrite (proj2 (Z.leb_le _ _)), (proj2 (Z.ltb_lt _ _)) by lia; reflexivity). cbn [andb negb].
    rewrite HL, Z.eqb_refl. cbn [negb]. assert ((a_dtype t =? 7) || (a_dtype t =? 9) = true) as -> by (cbn [In] in TD; destruct TD as [<- | [<- | []]]; reflexivity). cbn [negb].
    destruct H as [H | H]; [|now rewrite window_type_none].
    assert (window_fun func = None) as ->.
    { destruct func as [|[p|p|]|p]; try reflexivity; exfalso; apply H; cbn; auto. }
    now destruct (window_type (a_dtype a)) as [((T, U), out)|].
  Qed.
End Time.
