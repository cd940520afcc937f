(** Proofs about EmaAll32: from its arguments to its results. *)
From Coq Require Import Reals.
From Verif Require Import Base Mem MemLemmas AccumSpec EmaModel EmaSpec EmaProofs AllModel AllSpec AllProofs All2Proofs All3Proofs All4Proofs All5Proofs EaModel EaSpec EaProofs.
Local Open Scope Z_scope.

(** ** The arguments *)
Lemma read_arg_right {X} (zero : X) n (a : arg X) : 0 <= n -> arg_ok n a -> gapless a -> read_arg a = Some (arg_vals zero a).
Proof.
  intros HN (HL & HS & HI) HC. rewrite <- HL in HN. unfold read_arg, arg_vals.
  assert (E : a_start a + a_len a <= Z.of_nat (length (a_mem a))).
  { destruct (Z.eq_dec (a_len a) 0) as [-> |N]; [lia|]. destruct HC as [C | C]; [|specialize (HI 0); lia]. specialize (HI (a_len a - 1)). rewrite C in HI. lia. }
  rewrite (proj2 (Z.leb_le _ _)), (proj2 (Z.leb_le _ _)) by lia. cbn [andb]. f_equal.
  apply nth_ext with (d := zero) (d' := zero).
  - rewrite firstn_length, skipn_length, map_length, seq_length. lia.
  - intros i Hi. rewrite firstn_length, skipn_length in Hi.
    set (g := fun i : nat => _). replace (nth i (map g _) zero) with (g i).
    2:{ symmetry. rewrite nth_indep with (d' := g 0%nat) by (rewrite map_length, seq_length; lia). rewrite (map_nth g), seq_nth by lia. reflexivity. }
    unfold g. clear g.
    assert (P : a_start a + Z.of_nat i * a_step a = a_start a + Z.of_nat i).
    { destruct HC as [-> | C]; [lia|]. replace i with 0%nat by lia. lia. }
    rewrite P. replace (Z.to_nat (a_start a + Z.of_nat i)) with (Z.to_nat (a_start a) + i)%nat by lia.
    assert (G : forall (l : list X) a n j, (j < n)%nat -> nth j (firstn n (skipn a l)) zero = nth (a + j) l zero).
    { clear. intros l a n j Hj. revert a n j Hj. induction l as [|x l IH]; intros a n j Hj.
      - rewrite skipn_nil, firstn_nil. now destruct j, (a + _)%nat.
      - destruct a as [|a]; [|cbn [skipn Nat.add nth]; now apply IH].
        cbn [skipn Nat.add]. destruct n as [|n]; [lia|]. destruct j as [|j]; [reflexivity|]. cbn [firstn nth]. apply (IH 0%nat n j). lia. }
    apply G. lia.
Qed.
Lemma arg_vals_length {X} (zero : X) n (a : arg X) : arg_ok n a -> length (arg_vals zero a) = Z.to_nat n.
Proof. intros (<- & _). unfold arg_vals. now rewrite map_length, seq_length. Qed.
Lemma mask_checked n p : 0 <= n -> mask_given n p -> exists o, check_mask n p = Done o /\ read_opt o = Done (mask_vals p).
Proof.
  intros HN. destruct p as [|a|]; cbn [mask_given check_mask mask_vals]; [intros _; exists None; split; reflexivity| |contradiction].
  intros (D & OK & G). exists (Some a). rewrite D, (proj1 OK), !Z.eqb_refl. split; [reflexivity|]. cbn [read_opt]. now rewrite (read_arg_right false n a HN OK G).
Qed.
Lemma mask_vals_ok n p : 0 <= n -> mask_given n p -> mask_ok (Z.to_nat n) (mask_vals p).
Proof. intros HN. destruct p as [|a|]; cbn; auto. intros (_ & OK & _). now apply arg_vals_length. Qed.
Definition time_vals {F} (zero : num F) (p : param (num F)) : option (Z * list (num F)) := match p with PArray a => Some (a_dtype a, arg_vals zero a) | _ => None end.
Lemma time_checked {F} (zero : num F) n (p : param (num F)) : 0 <= n -> time_given n p -> exists o l, check_time n p = Done o /\ read_opt o = Done l /\
  option_map (fun l => (match o with Some a => a_dtype a | None => -1 end, l)) l = time_vals zero p.
Proof.
  intros HN. destruct p as [|a|]; cbn [time_given check_time time_vals]; [intros _; exists None, None; repeat split; reflexivity| |contradiction].
  intros (D & OK & G). exists (Some a), (Some (arg_vals zero a)). rewrite (proj2 (Z.ltb_ge (a_dtype a) 5)), (proj2 (Z.ltb_ge 13 (a_dtype a))), (proj1 OK), Z.eqb_refl by lia.
  split; [reflexivity|]. cbn [read_opt]. now rewrite (read_arg_right zero n a HN OK G).
Qed.
Lemma each_right {X Y} (f : X -> outcome Y) (P : X -> Y -> Prop) l : (forall x, In x l -> exists y, f x = Done y /\ P x y) -> exists ys, each f l = Done ys /\ Forall2 P l ys.
Proof.
  induction l as [|x l IH]; intros H; [exists []; split; [reflexivity|constructor]|]. destruct (H x (or_introl eq_refl)) as (y & E & Py), IH as (ys & E' & Ps); [intros; apply H; now right|].
  exists (y :: ys). cbn [each]. rewrite E, E'. split; [reflexivity|now constructor].
Qed.
Lemma forall2_map_l {X Y W} (g : X -> Y) (P : Y -> W -> Prop) l ws : Forall2 P (map g l) ws -> Forall2 (fun x w => P (g x) w) l ws.
Proof. revert ws. induction l as [|x l IH]; intros ws H; inversion H; subst; constructor; auto. Qed.
Lemma key_type_ok key : key_ok key -> existsb (Z.eqb (k_dtype key)) [1; 3; 5; 7; 9] = true.
Proof. intros (_ & H & _). apply existsb_exists. exists (k_dtype key). split; [exact H|apply Z.eqb_refl]. Qed.

Section Call.
  Context {F : Type} (A : arith F) (fexp fneg : F -> F) (junk : nat -> F).

  (** a call with good arguments comes down to its columns *)
  Lemma call_right (P : column F -> option (Z * list (option (num F))) -> Prop) cs key unique func rate time include reset zero :
    key_ok key -> k_step key = 1 \/ k_len key <= 1 -> int64_ok unique = true -> int64_ok func = true -> cs <> [] -> Forall (shaped (k_len key)) cs ->
    time_given (k_len key) time -> mask_given (k_len key) include -> mask_given (k_len key) reset ->
    (forall c, In c cs -> exists r, one_column A fexp fneg junk (efun_of func) (key_vals key) (time_vals zero time) (mask_vals include) (mask_vals reset) rate unique (mkInfo (c_dtype c) (c_vals c)) = Done r /\ P c r) ->
    exists res, EmaAll32 A fexp fneg junk (map OArray cs) key unique func (PTuple (Some rate) time include reset) = Done res /\ Forall2 P cs res.
  Proof.
    intros KO KC HU HF NE HS HT HI HR HC. assert (HL : 0 <= k_len key) by apply KO. unfold EmaAll32. rewrite HU, HF. cbn [andb negb]. rewrite (key_type_ok key KO). cbn [negb].
    destruct (mask_checked _ _ HL HR) as (ro & -> & ER). cbn [obind]. destruct (mask_checked _ _ HL HI) as (io & -> & EI). cbn [obind].
    destruct (time_checked zero _ _ HL HT) as (to & tl & -> & ET & EV). cbn [obind]. rewrite (build_all (k_len key) cs HS). cbn [obind].
    assert (NE' : map inf_of cs <> []) by (destruct cs; [congruence|discriminate]). destruct (map inf_of cs) as [|i0 is0] eqn:EM; [congruence|]. rewrite <- EM. clear NE' EM i0 is0.
    rewrite (read_key_right key KO KC). cbn [undef obind]. rewrite ER. cbn [obind]. rewrite EI. cbn [obind]. rewrite ET. cbn [obind]. rewrite EV.
    destruct (each_right (one_column A fexp fneg junk (efun_of func) (key_vals key) (time_vals zero time) (mask_vals include) (mask_vals reset) rate unique)
               (fun i r => forall c, In c cs -> i = inf_of c -> P c r) (map inf_of cs)) as (res & -> & HP).
    - intros i Hi. apply in_map_iff in Hi as (c & <- & Hc). destruct (HC c Hc) as (r & E & Pr). exists r. split; [exact E|]. intros c' Hc' Ec.
      destruct (HC c' Hc') as (r' & E' & Pr'). unfold inf_of in Ec. injection Ec as E1 E2. rewrite <- E1, <- E2, E in E'. injection E' as <-. exact Pr'.
    - exists res. split; [reflexivity|]. apply forall2_map_l in HP. clear - HP. assert (G : forall l, (forall c, In c l -> In c cs) -> forall rs, Forall2 (fun x w => forall c, In c cs -> inf_of x = inf_of c -> P c w) l rs -> Forall2 P l rs).
      { induction l as [|c l IH]; intros HL rs H; inversion H; subst; constructor; [apply H2; [apply HL; now left|reflexivity]|]. apply IH; [intros; apply HL; now right|assumption]. }
      now apply (G cs).
  Qed.
End Call.

(** ** Running values *)
Lemma efun_303 : efun_of 303 = Some FINDNTH.
Proof. reflexivity. Qed.
Definition efun_for (func : Z) : efun :=
  match func with 300 => CUMSUM | 302 => CUMPROD | 306 => CUMNANMAX | 307 => CUMNANMIN | 308 => CUMMAX | 309 => CUMMIN | _ => FINDNTH end.
Lemma efun_right func : In func running -> efun_of func = Some (efun_for func).
Proof. cbn [running In]. intros H. each_func H; reflexivity. Qed.
Lemma table_running func d tt : In func running -> func <> 303 -> 0 <= d <= 13 -> exists o T U,
  GetEmaByFunction (efun_for func) (ty_of d) tt = Some (o, o) /\ ty_eqb o o = true /\ out_num (efun_for func) d o = result_dtype func d /\
  stored d = Some T /\ stored (result_dtype func d) = Some U /\ (In func [300; 302] -> U = wide d).
Proof.
  cbn [running In]. intros HF N HD. each_dtype d HD; each_func HF; try (exfalso; congruence); do 3 eexists; (split; [reflexivity|]); (split; [reflexivity|]); (split; [reflexivity|]);
    (split; [reflexivity|]); (split; [reflexivity|]); cbn [In]; intros H; try reflexivity; each_func H; discriminate.
Qed.
Lemma ty_other d : ~ 0 <= d <= 13 -> ty_of d = Other.
Proof. intros H. unfold ty_of. destruct d as [|p|p]; [lia| |reflexivity]. do 4 (destruct p as [p|p|]; try reflexivity; try lia). Qed.

Section Running.
  Context {F : Type} (A : arith F) (AO : arith_ok A) (fexp fneg : F -> F) (junk : nat -> F).
  Context (keys : list Z) (n : Z) (Hn : 0 <= n) (Hk : Forall (fun k => k <= n) keys) (im rm : option (list bool)) (Hi : mask_ok (length keys) im) (Hr : mask_ok (length keys) rm).

  Lemma kernel_right func d T U V vs ts rate : In func running -> func <> 303 -> stored d = Some T -> stored (result_dtype func d) = Some U -> (In func [300; 302] -> U = wide d) ->
    elements_ok d vs -> length vs = length keys -> (plain im rm = true -> In func [306; 307; 308; 309] -> Forall (fun k => 0 <= k) keys) ->
    exists out, run_kernel A fexp fneg junk (efun_for func) T U V keys vs ts im rm rate n = Some out /\ rows_spec A func d keys vs im rm out.
  Proof.
    intros HF N HT HU HW HE HL HP. pose proof (fun v => elements_typed d T vs v HT HE) as TY. pose proof (stored_sized d T HT) as ST.
    assert (AG : forall d0 vs0, d0 = inval A T \/ In d0 vs -> (forall v, In v vs0 -> In v vs) -> forall v, v = d0 \/ In v vs0 -> of_type d v).
    { intros d0 vs0 [-> | H0] H1 v [-> | Hv]; auto. now apply inval_typed. }
    assert (AB : forall d0 vs0, d0 = inval A T \/ In d0 vs -> (forall v, In v vs0 -> In v vs) -> forall v w, v = d0 \/ In v vs0 -> w = d0 \/ In w vs0 -> less A T v w = below A v w).
    { intros d0 vs0 H0 H1 v w Hv Hw. apply (below_agrees A d T v w HT); eapply AG; eauto. }
    cbn [running In] in HF. each_func HF; try (exfalso; congruence); cbn [efun_for run_kernel rows_spec].
    - rewrite (HW (or_introl eq_refl)). destruct (CumOp_ok keys vs n im rm Hn Hk HL Hi Hr (inval A (wide d)) (conv A (wide d)) (zero_of A (wide d)) (add A (wide d))) as (out & E & B).
      exists out. split; [exact E|]. rewrite <- inval_wide. eapply by_group_imp; [exact B|]. intros i v _ H. eapply run_row_imp; [exact H|]. intros ws Hws. apply (sums_right A d T); auto.
    - rewrite (HW (or_intror (or_introl eq_refl))). destruct (CumOp_ok keys vs n im rm Hn Hk HL Hi Hr (inval A (wide d)) (conv A (wide d)) (one_of A (wide d)) (prod A (wide d))) as (out & E & B).
      exists out. split; [exact E|]. rewrite <- inval_wide. eapply by_group_imp; [exact B|]. intros i v _ H. eapply run_row_imp; [exact H|]. intros ws Hws. apply (products_right A d T); auto.
    - destruct (CumNanExtreme_ok keys vs n im rm (inval A T) (ok A T) (greater A T) Hn Hk HL Hi Hr (inval_bad A AO T ST) (greater_ok A AO T) (fun H => HP H ltac:(cbn; auto))) as (out & E & B).
      exists out. split; [exact E|]. eapply by_group_imp; [exact B|]. intros i v Ev H. pose proof (nan_values _ _ _ _ _ _ _ _ _ E i v Ev) as Hv.
      eapply run_row_imp; [exact H|]. intros ws Hws. split; [apply (AG v []); auto; intros ? []|]. revert H0. apply nan_ext; [intros w Hw; apply (valid_agrees A AO d T w HT); eapply AG; eauto|].
      intros w w' Hw Hw'. unfold greater, above. eapply AB; eauto.
    - destruct (CumNanExtreme_ok keys vs n im rm (inval A T) (ok A T) (less A T) Hn Hk HL Hi Hr (inval_bad A AO T ST) (less_ok A AO T) (fun H => HP H ltac:(cbn; auto))) as (out & E & B).
      exists out. split; [exact E|]. eapply by_group_imp; [exact B|]. intros i v Ev H. pose proof (nan_values _ _ _ _ _ _ _ _ _ E i v Ev) as Hv.
      eapply run_row_imp; [exact H|]. intros ws Hws. split; [apply (AG v []); auto; intros ? []|]. revert H0. apply nan_ext; [intros w Hw; apply (valid_agrees A AO d T w HT); eapply AG; eauto|].
      intros w w' Hw Hw'. eapply AB; eauto.
    - destruct (CumExtreme_ok keys vs n im rm (inval A T) (ok A T) (greater A T) Hn Hk HL Hi Hr (inval_bad A AO T ST) (greater_ok A AO T) (fun H => HP H ltac:(cbn; auto))) as (out & E & B).
      exists out. split; [exact E|]. eapply by_group_imp; [exact B|]. intros i v Ev H. pose proof (full_values _ _ _ _ _ _ _ _ _ E i v Ev) as Hv.
      eapply run_row_imp; [exact H|]. intros ws Hws. split; [apply (AG v []); auto; intros ? []|]. revert H0. apply full_ext; [intros w Hw; apply (valid_agrees A AO d T w HT); eapply AG; eauto|].
      intros w w' Hw Hw'. unfold greater, above. eapply AB; eauto.
    - destruct (CumExtreme_ok keys vs n im rm (inval A T) (ok A T) (less A T) Hn Hk HL Hi Hr (inval_bad A AO T ST) (less_ok A AO T) (fun H => HP H ltac:(cbn; auto))) as (out & E & B).
      exists out. split; [exact E|]. eapply by_group_imp; [exact B|]. intros i v Ev H. pose proof (full_values _ _ _ _ _ _ _ _ _ E i v Ev) as Hv.
      eapply run_row_imp; [exact H|]. intros ws Hws. split; [apply (AG v []); auto; intros ? []|]. revert H0. apply full_ext; [intros w Hw; apply (valid_agrees A AO d T w HT); eapply AG; eauto|].
      intros w w' Hw Hw'. eapply AB; eauto.
  Qed.

  Lemma column_right func (c : column F) times rate : In func running -> (n + 1) * 16 < 2 ^ 63 -> elements_ok (c_dtype c) (c_vals c) -> length (c_vals c) = length keys ->
    (func = 303 -> Z.of_nat (length keys) < 2 ^ 31) -> (plain im rm = true -> In func [306; 307; 308; 309] -> Forall (fun k => 0 <= k) keys) ->
    exists r, one_column A fexp fneg junk (efun_of func) keys times im rm rate n (mkInfo (c_dtype c) (c_vals c)) = Done r /\ column_answer A func keys im rm c r.
  Proof.
    intros HF HB HE HL HS HP. unfold one_column. rewrite (efun_right func HF). cbn [i_dtype i_vals]. set (tt := match times with Some (d, _) => ty_of d | None => Other end). set (V := match times with Some (d, _) => match stored d with Some V => V | None => D64 end | None => D64 end).
    set (ts := match times with Some (_, l) => l | None => [] end).
    assert (SZ : (n <? -1) || (2 ^ 63 <=? (n + 1) * 16) = false) by (apply orb_false_iff; split; [apply Z.ltb_ge; lia|apply Z.leb_gt; lia]).
    unfold column_answer. destruct (Z.eqb_spec func 303) as [-> | N].
    - cbn [efun_for GetEmaByFunction orb]. rewrite SZ. cbn [ty_eqb negb andb run_kernel].
      destruct (FindNth_ok keys keys n im Hn Hk eq_refl Hi (HS eq_refl)) as (out & E & B). rewrite E. cbn [ints_of option_map undef obind out_num].
      eexists. split; [reflexivity|]. eexists. split; [reflexivity|]. cbn [rows_spec]. exact (by_group_map (@I F) 1 keys (Some 0) _ out B).
    - cbn [orb]. destruct ((0 <=? c_dtype c) && (c_dtype c <=? 13)) eqn:ED.
      + apply andb_true_iff in ED as (E1 & E2). apply Z.leb_le in E1. apply Z.leb_le in E2.
        destruct (table_running func (c_dtype c) tt HF N (conj E1 E2)) as (o & T & U & -> & -> & -> & HT & HU & HW). rewrite SZ, HT, HU. cbn [negb andb].
        destruct (kernel_right func (c_dtype c) T U V (c_vals c) ts rate HF N HT HU HW HE HL HP) as (out & E & SP). rewrite E. cbn [undef obind].
        exists (Some (result_dtype func (c_dtype c), out)). split; [|eauto]. assert (NF : efun_for func <> FINDNTH) by (clear - HF N; cbn [running In] in HF; each_func HF; congruence || discriminate).
        destruct (efun_for func); congruence || reflexivity.
      + rewrite (ty_other (c_dtype c)). { exists None. split; [|reflexivity]. cbn [running In] in HF. each_func HF; try (exfalso; congruence); reflexivity. }
        intros (E1 & E2). apply andb_false_iff in ED as [ED | ED]; apply Z.leb_gt in ED; lia.
  Qed.
End Running.
