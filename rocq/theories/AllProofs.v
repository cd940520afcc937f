(** Proofs about GroupByAll32: the tables and one column. *)
From Verif Require Import Base Mem MemLemmas Inter AccumModel AccumSpec AccumProofs Accum2Proofs Accum3Proofs Accum4Proofs Accum5Proofs
  VarModel VarSpec VarProofs AllModel AllSpec.
Local Open Scope Z_scope.

(** ** The tables *)
Definition kname_for (func d : Z) : kname :=
  let f := d =? 11 in
  match func with
  | 0 => if f then KSumFloat else KSum
  | 50 => if f then KNanSumFloat else KNanSum
  | 1 => if f then KMeanFloat else KMean
  | 51 => if f then KNanMeanFloat else KNanMean
  | 2 => KMin | 3 => KMax
  | 52 => if d =? 0 then KMin else KNanMin
  | 53 => if d =? 0 then KMax else KNanMax
  | 4 => KVar | 5 => KStd | 54 => KNanVar | _ => KNanStd
  end.

Ltac each_func H := repeat (destruct H as [H | H]; [subst|]); [..|contradiction].
Ltac each_dtype d H :=
  let E := fresh in
  assert (E : In d [0; 1; 2; 3; 4; 5; 6; 7; 8; 9; 10; 11; 12; 13]) by (cbn [In]; lia);
  clear H; cbn [In] in E; each_func E.

Lemma table_right func d : In func functions -> 0 <= d <= 13 -> exists T U counts tmp,
  GetGroupByFunction func d = Some (mkFound (mkK (kname_for func d) T U) (out_dtype func d) counts tmp) /\
  stored d = Some T /\ stored (out_dtype func d) = Some U /\
  (uses_counts (kname_for func d) = true -> counts = true) /\ (gather_counts func = true -> counts = true) /\
  (uses_tmp (kname_for func d) T = true -> tmp = true) /\
  (scatters func = true -> gather_type func (out_dtype func d) = Some U).
Proof.
  intros HF HD. cbn [functions In] in HF. each_dtype d HD; each_func HF; do 4 eexists; (split; [reflexivity|]); (split; [reflexivity|]); (split; [reflexivity|]);
    cbn; repeat split; try reflexivity; intros H; try reflexivity; try discriminate H.
Qed.
Lemma table_none func d : ~ (In func functions /\ 0 <= d <= 13) -> GetGroupByFunction func d = None.
Proof.
  intros H. unfold GetGroupByFunction.
  assert (N : In func functions \/ from_case func cases = []).
  { cbn [cases from_case case_num functions In]. repeat match goal with |- context [if func =? ?n then _ else _] => destruct (Z.eqb_spec func n); [left; subst; auto 20|] end. right. reflexivity. }
  destruct N as [N | ->]; [|reflexivity].
  assert (Hd : d < 0 \/ 13 < d) by (destruct (Z_lt_dec d 0), (Z_lt_dec 13 d); auto; exfalso; apply H; split; [exact N|lia]).
  assert (T0 : forall c, table c d = None).
  { intros c. destruct c; cbn [table]; unfold sum_table, min_table, mean_table;
      (destruct d as [|p|p]; [lia| |reflexivity]); do 4 (destruct p as [p|p|]; try reflexivity; try lia). }
  generalize (from_case func cases) false. induction l as [|c l IH]; intros b; cbn [fall]; [reflexivity|]. now rewrite T0.
Qed.

Lemma ctype_eqb_refl T : ctype_eqb T T = true.
Proof. destruct T; cbn; apply Z.eqb_refl. Qed.
Lemma typed_refl d T : stored d = Some T -> typed d T = true.
Proof. unfold typed. intros ->. apply ctype_eqb_refl. Qed.

(** ** The arithmetic *)
Section Arith.
  Context {F : Type} (A : arith F).
  Context (AO : arith_ok A).

  Lemma wrapT_idem U z : (match U with CI b | CU b => 0 < b | CF _ => True end) -> wrapT U (wrapT U z) = wrapT U z.
  Proof.
    clear AO. destruct U as [b|b|b]; cbn [wrapT]; intros Hb; [| |reflexivity].
    - replace ((z + 2 ^ (8 * b - 1)) mod 2 ^ (8 * b) - 2 ^ (8 * b - 1) + 2 ^ (8 * b - 1)) with ((z + 2 ^ (8 * b - 1)) mod 2 ^ (8 * b)) by lia.
      now rewrite Z.mod_mod by (apply Z.pow_nonzero; lia).
    - now rewrite Z.mod_mod by (apply Z.pow_nonzero; lia).
  Qed.
  Definition sized (U : ctype) : Prop := match U with CI b | CU b => 0 < b | CF _ => True end.
  Lemma stored_sized d U : stored d = Some U -> sized U.
  Proof. unfold stored. destruct d as [|p|p]; [intros [= <-]; cbn; lia| |discriminate]. do 4 (destruct p as [p|p|]; try discriminate; try (intros [= <-]; cbn; lia)). Qed.

  Lemma inval_bad U : sized U -> ok A U (inval A U) = false.
  Proof.
    destruct AO as (_ & N & _). intros HU. unfold ok, inval. destruct U as [b|b|b]; cbn [zval fval int_inv].
    - apply negb_false_iff, Z.eqb_eq. cbn [wrapT]. cbn in HU. rewrite Z.add_opp_diag_l, Z.mod_0_l by (apply Z.pow_nonzero; lia). lia.
    - apply negb_false_iff, Z.eqb_eq. cbn [wrapT]. cbn in HU. apply Z.mod_small. assert (0 < 2 ^ (8 * b)) by (apply Z.pow_pos_nonneg; lia). lia.
    - now rewrite N.
  Qed.
  Lemma less_ok U : order_ok (ok A U) (less A U).
  Proof.
    destruct AO as ((o1 & o2 & o3) & _). unfold less, ok. destruct U.
    - split; [|split]; intros; rewrite ?Z.ltb_lt, ?Z.ltb_ge in *; lia.
    - split; [|split]; intros; rewrite ?Z.ltb_lt, ?Z.ltb_ge in *; lia.
    - split; [|split]; intros; eauto.
  Qed.
  Lemma greater_ok U : order_ok (ok A U) (greater A U).
  Proof.
    destruct (less_ok U) as (o1 & o2 & o3). unfold greater. split; [|split]; intros; eauto.
  Qed.
  Lemma conv_ok T U x : (T = U \/ exists b, U = CF b /\ exists c, T = CF c) -> sized U -> ok A T x = true -> ok A U (conv A U x) = true.
  Proof.
    destruct AO as (_ & _ & C & I0 & _). intros [-> | (b & -> & c & ->)] HU.
    - unfold ok, conv. destruct U as [b|b|b]; cbn [zval fval].
      + now rewrite wrapT_idem.
      + now rewrite wrapT_idem.
      + destruct x; cbn [fval]; rewrite ?I0, ?C; auto.
    - unfold ok, conv. cbn [fval]. destruct x; cbn [fval]; rewrite ?I0, ?C; auto.
  Qed.
  Lemma narrow_zero : narrow A (CF 4) (zero_of A D64) = zero_of A (CF 4).
  Proof. destruct AO as (_ & _ & _ & _ & Z0). unfold narrow, zero_of, D64, fval. now rewrite Z0. Qed.

  Lemma stored_min func d T U : In func [2; 3; 52; 53] -> stored d = Some T -> stored (out_dtype func d) = Some U -> T = U.
  Proof.
    clear AO. intros HF HT HU. assert (E : out_dtype func d = if d =? 9 then 7 else if d =? 10 then 8 else d).
    { cbn [In] in HF. each_func HF; reflexivity. }
    rewrite E in HU. destruct (Z.eqb_spec d 9) as [-> | _]; [cbn in HT, HU; congruence|]. destruct (Z.eqb_spec d 10) as [-> | _]; cbn in HT, HU; congruence.
  Qed.
  Lemma stored_11 func T U : ~ In func [2; 3; 52; 53] -> In func functions -> stored 11 = Some T -> stored (out_dtype func 11) = Some U -> T = CF 4 /\ U = CF 4.
  Proof.
    clear AO. intros HN HF [= <-]. cbn [functions In] in *. each_func HF; try (exfalso; tauto); cbn; intros [= <-]; auto.
  Qed.
  Lemma bool_valid x : x = I 0 \/ x = I 1 -> ok A (CI 1) x = true.
  Proof. intros [-> | ->]; reflexivity. Qed.
  Lemma stored_eqb d T : stored d = Some T -> ctype_eqb T (CF 4) = (d =? 11).
  Proof.
    clear AO. unfold stored. destruct d as [|p|p]; [intros [= <-]; reflexivity| |discriminate].
    do 4 (destruct p as [p|p|]; try discriminate; try (intros [= <-]; reflexivity)).
  Qed.
  Lemma filter_all {X} (f : X -> bool) l : (forall x, In x l -> f x = true) -> filter f l = l.
  Proof. clear AO. induction l as [|x l IH]; intros H; cbn; [reflexivity|]. rewrite (H x) by now left. f_equal. apply IH. intros y Y. apply H. now right. Qed.
  Lemma group_vals_in {X} (rows : list (Z * X)) g v : In v (group_vals rows g) -> exists k, In (k, v) rows.
  Proof. clear AO. unfold group_vals. intros H. apply in_map_iff in H as ((k & w) & <- & I0). apply filter_In in I0 as (I0 & _). now exists k. Qed.

  (** ** One call *)
  Lemma call_right func d T U counts tmp low high rows out0 tmp0 sq0 :
    In func functions -> stored d = Some T -> stored (out_dtype func d) = Some U ->
    (uses_counts (kname_for func d) = true -> counts = true) -> (uses_tmp (kname_for func d) T = true -> tmp = true) ->
    (d = 0 -> forall k v, In (k, v) rows -> v = I 0 \/ v = I 1) ->
    0 <= low <= high -> high <= Z.of_nat (length out0) -> length tmp0 = length out0 -> length sq0 = length out0 ->
    (func = 50 -> d = 11 -> low = 0 \/ high - low < Z.of_nat (length rows)) ->
    exists res, call_kernel A (mkK (kname_for func d) T U) counts tmp low high rows out0 tmp0 sq0 = Some res /\
      length res = length out0 /\ reduced (group_spec A func d) low high rows res.
  Proof.
    intros HF HT HU Hc Ht HB H0 H1 L1 L2 HS. unfold call_kernel. cbn [k_name k_T k_U].
    replace ((uses_counts (kname_for func d) && negb counts) || (uses_tmp (kname_for func d) T && negb tmp) || (memsets (kname_for func d) && (high <? low))) with false.
    2:{ symmetry. rewrite (proj2 (Z.ltb_ge high low)) by lia. rewrite andb_false_r, orb_false_r. apply orb_false_iff. split.
        - destruct (uses_counts _); [rewrite Hc by reflexivity|]; reflexivity.
        - destruct (uses_tmp _ _); [rewrite Ht by reflexivity|]; reflexivity. }
    pose proof (stored_sized _ _ HU) as SU. pose proof (inval_bad U SU) as IB.
    pose proof (stored_eqb d T HT) as EQ.
    cbn [functions In] in HF. unfold group_spec. rewrite HT, HU. cbv zeta.
    each_func HF; cbn [kname_for acc_fun_of tmp_fun_of var_of] in *.
    - destruct (Z.eqb_spec d 11) as [-> | nd]; cbn [acc_fun_of tmp_fun_of].
      + destruct (stored_11 0 T U) as (-> & ->); [cbn; lia|cbn; auto|exact HT|exact HU|].
        destruct (seq_float (ok A (CF 4)) (inval A (CF 4)) (zero_of A (CF 4)) (zero_of A D64) (inval A D64) (conv A D64) (narrow A (CF 4)) (add A D64) (divn A D64)
           low high rows out0 tmp0 narrow_zero H0 H1 L1) as ((r & E & Lr & Rr) & _). eauto.
      + destruct (seq_sum (ok A T) (inval A U) (zero_of A U) (conv A U) (add A U) low high rows out0 H0 H1) as (r & E & Lr & Rr & _). eauto.
    - destruct (Z.eqb_spec d 11) as [-> | nd]; cbn [acc_fun_of tmp_fun_of].
      + destruct (stored_11 1 T U) as (-> & ->); [cbn; lia|cbn; auto|exact HT|exact HU|].
        destruct (seq_float (ok A (CF 4)) (inval A (CF 4)) (zero_of A (CF 4)) (zero_of A D64) (inval A D64) (conv A D64) (narrow A (CF 4)) (add A D64) (divn A D64)
           low high rows out0 tmp0 narrow_zero H0 H1 L1) as (_ & (r & E & Lr & Rr) & _). eauto.
      + destruct (seq_mean (ok A T) (inval A U) (zero_of A U) (conv A U) (add A U) (divn A U) low high rows out0 H0 H1) as (r & E & Lr & Rr & _). eauto.
    - assert (T = U) by (apply (stored_min 2 d T U); cbn; auto). subst T.
      destruct (seq_min (ok A U) (ok A U) (inval A U) (conv A U) (less A U) low high rows out0 (less_ok U) (fun x => conv_ok U U x (or_introl eq_refl) SU) H0 H1) as (r & E & Lr & Rr & _). eauto.
    - assert (T = U) by (apply (stored_min 3 d T U); cbn; auto). subst T.
      destruct (seq_min (ok A U) (ok A U) (inval A U) (conv A U) (greater A U) low high rows out0 (greater_ok U) (fun x => conv_ok U U x (or_introl eq_refl) SU) H0 H1) as (r & E & Lr & Rr & _). eauto.
    - unfold var_of. rewrite EQ. destruct (Z.eqb_spec d 11) as [-> | nd].
      + destruct (run_AccumVar (ok A T) (inval A U) (zero_of A U) (zero_of A D64) (conv A D64) (narrow A U) (add A D64) (sub A D64) (mul A D64) (divn A D64) (sqrt_of A U) in_tmp
          low high rows out0 tmp0 sq0 (in_tmp_ok _ _) H0 H1 L1 L2) as (r & E & Lr & Rr & _). eauto.
      + destruct (run_AccumVar (ok A T) (inval A U) (zero_of A U) (zero_of A U) (conv A U) (fun x => x) (add A U) (sub A U) (mul A U) (divn A U) (sqrt_of A U) in_out
          low high rows out0 tmp0 sq0 (in_out_ok _) H0 H1 L1 L2) as (r & E & Lr & Rr & _). eauto.
    - unfold var_of. rewrite EQ. destruct (Z.eqb_spec d 11) as [-> | nd].
      + destruct (run_AccumStd (ok A T) (inval A U) (zero_of A U) (zero_of A D64) (conv A D64) (narrow A U) (add A D64) (sub A D64) (mul A D64) (divn A D64) (sqrt_of A U) in_tmp
          low high rows out0 tmp0 sq0 (in_tmp_ok _ _) H0 H1 L1 L2) as (r & E & Lr & Rr & _). eauto.
      + destruct (run_AccumStd (ok A T) (inval A U) (zero_of A U) (zero_of A U) (conv A U) (fun x => x) (add A U) (sub A U) (mul A U) (divn A U) (sqrt_of A U) in_out
          low high rows out0 tmp0 sq0 (in_out_ok _) H0 H1 L1 L2) as (r & E & Lr & Rr & _). eauto.
    - destruct (Z.eqb_spec d 11) as [-> | nd]; cbn [acc_fun_of tmp_fun_of].
      + destruct (stored_11 50 T U) as (-> & ->); [cbn; lia|cbn; auto 20|exact HT|exact HU|].
        destruct (seq_nansum_float (ok A (CF 4)) (inval A (CF 4)) (zero_of A (CF 4)) (zero_of A D64) (conv A D64) (narrow A (CF 4)) (add A D64)
           low high rows out0 tmp0 narrow_zero H0 H1 L1 (HS eq_refl eq_refl)) as (r & E & Lr & Rr). eauto.
      + destruct (seq_nansum (ok A T) (zero_of A U) (conv A U) (add A U) low high rows out0 H0 H1) as (r & E & Lr & Rr & _). eauto.
    - destruct (Z.eqb_spec d 11) as [-> | nd]; cbn [acc_fun_of tmp_fun_of].
      + destruct (stored_11 51 T U) as (-> & ->); [cbn; lia|cbn; auto 20|exact HT|exact HU|].
        destruct (seq_float (ok A (CF 4)) (inval A (CF 4)) (zero_of A (CF 4)) (zero_of A D64) (inval A D64) (conv A D64) (narrow A (CF 4)) (add A D64) (divn A D64)
           low high rows out0 tmp0 narrow_zero H0 H1 L1) as (_ & _ & r & E & Lr & Rr). eauto.
      + destruct (seq_nanmean (ok A T) (inval A U) (zero_of A U) (conv A U) (add A U) (divn A U) low high rows out0 H0 H1) as (r & E & Lr & Rr & _). eauto.
    - assert (T = U) by (apply (stored_min 52 d T U); cbn; auto). subst T. destruct (Z.eqb_spec d 0) as [-> | nd]; cbn [acc_fun_of].
      + destruct (seq_min (ok A U) (ok A U) (inval A U) (conv A U) (less A U) low high rows out0 (less_ok U) (fun x => conv_ok U U x (or_introl eq_refl) SU) H0 H1) as (r & E & Lr & Rr & _).
        exists r. split; [exact E|]. split; [exact Lr|]. intros g Hg. destruct (Rr g Hg) as (w & N & S). exists w. split; [exact N|]. unfold nanmin_spec.
        rewrite filter_all; [exact S|]. intros x X. apply group_vals_in in X as (k & X). injection HT as <-. eapply bool_valid, HB; eauto.
      + destruct (seq_nanmin (ok A U) (ok A U) (inval A U) (conv A U) (less A U) low high rows out0 (less_ok U) (fun x => conv_ok U U x (or_introl eq_refl) SU) IB H0 H1) as (r & E & Lr & Rr & _). eauto.
    - assert (T = U) by (apply (stored_min 53 d T U); cbn; auto). subst T. destruct (Z.eqb_spec d 0) as [-> | nd]; cbn [acc_fun_of].
      + destruct (seq_min (ok A U) (ok A U) (inval A U) (conv A U) (greater A U) low high rows out0 (greater_ok U) (fun x => conv_ok U U x (or_introl eq_refl) SU) H0 H1) as (r & E & Lr & Rr & _).
        exists r. split; [exact E|]. split; [exact Lr|]. intros g Hg. destruct (Rr g Hg) as (w & N & S). exists w. split; [exact N|]. unfold nanmin_spec.
        rewrite filter_all; [exact S|]. intros x X. apply group_vals_in in X as (k & X). injection HT as <-. eapply bool_valid, HB; eauto.
      + destruct (seq_nanmin (ok A U) (ok A U) (inval A U) (conv A U) (greater A U) low high rows out0 (greater_ok U) (fun x => conv_ok U U x (or_introl eq_refl) SU) IB H0 H1) as (r & E & Lr & Rr & _). eauto.
    - unfold var_of. rewrite EQ. destruct (Z.eqb_spec d 11) as [-> | nd].
      + destruct (run_AccumNanVar (ok A T) (inval A U) (zero_of A U) (zero_of A D64) (conv A D64) (narrow A U) (add A D64) (sub A D64) (mul A D64) (divn A D64) (sqrt_of A U) in_tmp
          low high rows out0 tmp0 sq0 (in_tmp_ok _ _) H0 H1 L1 L2) as (r & E & Lr & Rr & _). eauto.
      + destruct (run_AccumNanVar (ok A T) (inval A U) (zero_of A U) (zero_of A U) (conv A U) (fun x => x) (add A U) (sub A U) (mul A U) (divn A U) (sqrt_of A U) in_out
          low high rows out0 tmp0 sq0 (in_out_ok _) H0 H1 L1 L2) as (r & E & Lr & Rr & _). eauto.
    - unfold var_of. rewrite EQ. destruct (Z.eqb_spec d 11) as [-> | nd].
      + destruct (run_AccumNanStd (ok A T) (inval A U) (zero_of A U) (zero_of A D64) (conv A D64) (narrow A U) (add A D64) (sub A D64) (mul A D64) (divn A D64) (sqrt_of A U) in_tmp
          low high rows out0 tmp0 sq0 (in_tmp_ok _ _) H0 H1 L1 L2) as (r & E & Lr & Rr & _). eauto.
      + destruct (run_AccumNanStd (ok A T) (inval A U) (zero_of A U) (zero_of A U) (conv A U) (fun x => x) (add A U) (sub A U) (mul A U) (divn A U) (sqrt_of A U) in_out
          low high rows out0 tmp0 sq0 (in_out_ok _) H0 H1 L1 L2) as (r & E & Lr & Rr & _). eauto.
  Qed.
End Arith.
