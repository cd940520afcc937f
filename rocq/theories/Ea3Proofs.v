(** Proofs about EmaAll32: decayed sums and moving averages, over the real numbers. *)
From Coq Require Import Reals Lra Sorted.
From Verif Require Import Base Mem MemLemmas AccumSpec EmaModel EmaSpec EmaProofs Ema2Proofs AllModel AllSpec AllProofs All2Proofs All3Proofs All4Proofs All5Proofs EaModel EaSpec EaProofs Ea2Proofs.
Local Open Scope Z_scope.

Lemma before_sorted keys k i : StronglySorted Nat.lt (before keys k i).
Proof.
  unfold before. generalize 0%nat. induction i as [|i IH]; intros s; cbn [seq filter]; [constructor|]. destruct (has_key keys k s); [|apply IH].
  constructor; [apply IH|]. apply Forall_forall. intros j Hj. apply filter_In in Hj as (Hj & _). apply in_seq in Hj. unfold Nat.lt. lia.
Qed.
Lemma in_group_pairs {V} keys (times : list V) (P : V -> V -> Prop) k rows l : in_group keys times P -> StronglySorted Nat.lt rows -> (forall j, In j rows -> nth_error keys j = Some k) ->
  picked times rows l -> ForallOrdPairs (fun a b => P b a) l.
Proof.
  intros HG HS HK. revert l. induction HS as [|r rows HS IH HF]; intros l HP; destruct l as [|t l]; try discriminate HP; [constructor|].
  unfold picked in HP. cbn [map] in HP. injection HP as E1 E2. constructor.
  - rewrite Forall_forall in *. intros b Hb.
    assert (Hj : exists j, In j rows /\ nth_error times j = Some b).
    { clear - E2 Hb. revert l E2 Hb. induction rows as [|j rows IH]; intros [|x l] E Hb; try discriminate E; [destruct Hb|]. cbn [map] in E. injection E as E1 E2.
      destruct Hb as [<- | Hb]; [exists j; split; [now left|exact E1]|]. destruct (IH l E2 Hb) as (j' & H1 & H2). exists j'. split; [now right|exact H2]. }
    destruct Hj as (j & Hj & Ej). apply (HG j r k); [now apply HF|apply HK; now left|apply HK; now right|exact E1|exact Ej].
  - apply IH; [intros j Hj; apply HK; now right|exact E2].
Qed.
Lemma average_ext {V} (w w' : V -> V -> real) : forall ts xs e t, ForallOrdPairs (fun a b => w b a = w' b a) (t :: ts) -> average w e t (combine ts xs) = average w' e t (combine ts xs).
Proof.
  induction ts as [|b ts IH]; intros xs e t H; [reflexivity|]. destruct xs as [|x xs]; [reflexivity|]. cbn [combine average]. inversion H as [|? ? H1 H2]; subst.
  rewrite (Forall_inv H1). apply IH. exact H2.
Qed.
Lemma average_row_ext {T V} (ofT ofT' : T -> real) (w w' : V -> V -> real) keys src times i d :
  (forall v, ofT v = ofT' v) -> in_group keys times (fun t last => w t last = w' t last) -> average_row ofT w keys src times i d -> average_row ofT' w' keys src times i d.
Proof.
  intros HO HG H k Ek. destruct (H k Ek) as (v & t & vs & ts & P1 & P2 & ->). exists v, t, vs, ts. split; [exact P1|]. split; [exact P2|].
  rewrite HO, (map_ext _ _ HO). apply average_ext.
  apply (in_group_pairs keys times _ k (before keys k (S i)) (t :: ts) HG (before_sorted _ _ _)); [|exact P2]. intros j Hj. now apply before_in in Hj.
Qed.
Lemma decay_row_ext {T V} (ofT ofT' : T -> real) (time : V -> real) rate keys src times im rm i d :
  (forall v, ofT v = ofT' v) -> decay_row ofT time rate keys src times im rm i d -> decay_row ofT' time rate keys src times im rm i d.
Proof. intros HO H k Ek. destruct (H k Ek) as (s & vs & ts & ti & H1 & H2 & H3 & H4 & ->). exists s, vs, ts, ti. now rewrite (map_ext _ _ HO). Qed.

Section Real.
  Context (A : arith real) (RA : real_arith A) (junk : nat -> real).
  Context (keys : list Z) (n : Z) (Hn : 0 <= n) (im rm : option (list bool)) (Hi : mask_ok (length keys) im) (Hr : mask_ok (length keys) rm).

  Lemma to64_real v : to64 A v = real_of v.
  Proof. destruct RA as (_ & O & C & _). unfold to64, D64, real_of. destruct v; cbn [conv fval]; [apply O|apply C]. Qed.
  Lemma zero_real T : to64 A (zero_of A T) = 0%R.
  Proof. destruct RA as (Z0 & _). rewrite to64_real. destruct T; cbn [zero_of real_of]; [reflexivity|reflexivity|apply Z0]. Qed.

  (** the types of the times *)
  Lemma time_type d V : 5 <= d <= 12 -> stored d = Some V ->
    (V = CI (if d =? 5 then 4 else 8) /\ unsigned d = false /\ int_type d = Some (- 2 ^ (if d =? 5 then 31 else 63), 2 ^ (if d =? 5 then 31 else 63) - 1, - 2 ^ (if d =? 5 then 31 else 63))) \/
    (exists b, V = CU b /\ 0 < b /\ unsigned d = true /\ int_type d = Some (0, 2 ^ (8 * b) - 1, 2 ^ (8 * b) - 1)) \/ (exists b, V = CF b /\ int_type d = None /\ floating d = true).
  Proof.
    intros HD HV. assert (HI : In d [5; 6; 7; 8; 9; 10; 11; 12]) by (cbn [In]; lia). clear HD. cbn [In] in HI. each_func HI; injection HV as <-.
    - left. repeat split.
    - right. left. exists 4. repeat split.
    - left. repeat split.
    - right. left. exists 8. repeat split.
    - left. repeat split.
    - right. left. exists 8. repeat split.
    - right. right. exists 4. repeat split.
    - right. right. exists 8. repeat split.
  Qed.
  Lemma times_exact d V ts : 5 <= d <= 12 -> stored d = Some V -> elements_ok d ts -> times_ok d keys ts ->
    in_group keys ts (fun ti tj => delta A V ti tj = Some (real_of ti - real_of tj)%R).
  Proof.
    intros HD HV HE HT i j k ti tj Hj E1 E2 E3 E4. specialize (HT i j k ti tj Hj E1 E2 E3 E4). cbn beta in HT. destruct RA as (_ & O & C & _ & S).
    apply nth_error_In in E3. apply nth_error_In in E4. unfold elements_ok in HE.
    destruct (time_type d V HD HV) as [(-> & HU & EI) | [(b & -> & Hb & HU & EI) | (b & -> & EI & Fl)]]; rewrite EI in HE.
    - destruct HE as (zs & -> & _). apply in_map_iff in E3 as (a & <- & _). apply in_map_iff in E4 as (c & <- & _). rewrite HU in HT. cbn [delta zval real_of].
      replace (8 * (if d =? 5 then 4 else 8) - 1) with (if d =? 5 then 31 else 63) by (destruct (d =? 5); reflexivity).
      rewrite (proj2 (Z.leb_le _ _)), (proj2 (Z.ltb_lt _ _)) by apply HT. cbn [andb]. now rewrite O, minus_IZR.
    - destruct HE as (zs & -> & HZ). apply in_map_iff in E3 as (a & <- & Ha). apply in_map_iff in E4 as (c & <- & Hc). rewrite HU in HT. rewrite Forall_forall in HZ. pose proof (HZ a Ha). pose proof (HZ c Hc).
      cbn [delta zval real_of]. rewrite Z.mod_small by lia. now rewrite O, minus_IZR.
    - destruct (HE Fl) as (xs & ->). apply in_map_iff in E3 as (x & <- & _). apply in_map_iff in E4 as (y & <- & _). cbn [delta fval real_of]. destruct (S (CF b)) as (_ & -> & _). now rewrite C.
  Qed.
  Lemma from_zero d V ts t : 5 <= d <= 12 -> stored d = Some V -> elements_ok d ts -> In t ts -> exists x, delta A V t (zero_of A V) = Some x.
  Proof.
    intros HD HV HE Ht. unfold elements_ok in HE. destruct (time_type d V HD HV) as [(-> & HU & EI) | [(b & -> & Hb & HU & EI) | (b & -> & EI & Fl)]]; rewrite EI in HE; cbn [delta zero_of]; [|eauto|eauto].
    destruct HE as (zs & -> & HZ). apply in_map_iff in Ht as (a & <- & Ha). rewrite Forall_forall in HZ. pose proof (HZ a Ha) as Hz. cbn [zval].
    replace (8 * (if d =? 5 then 4 else 8) - 1) with (if d =? 5 then 31 else 63) by (destruct (d =? 5); reflexivity).
    rewrite (proj2 (Z.leb_le _ _)), (proj2 (Z.ltb_lt _ _)) by lia. cbn [andb]. eauto.
  Qed.
  Lemma from_large d V ts t : 5 <= d <= 12 -> stored d = Some V -> elements_ok d ts -> (In d [5; 7; 9] -> Forall (fun t => real_of t < 0)%R ts) -> In t ts ->
    exists x, delta A V t (large_negative A V) = Some x.
  Proof.
    intros HD HV HE HN Ht. unfold elements_ok in HE. destruct (time_type d V HD HV) as [(-> & HU & EI) | [(b & -> & Hb & HU & EI) | (b & -> & EI & Fl)]]; rewrite EI in HE; cbn [delta large_negative]; [|eauto|eauto].
    assert (HI : In d [5; 7; 9]). { clear - HD HV HU. assert (HI : In d [5; 6; 7; 8; 9; 10; 11; 12]) by (cbn [In]; lia). cbn [In] in *. each_func HI; cbn in HV, HU; auto; discriminate. }
    specialize (HN HI). rewrite Forall_forall in HN. specialize (HN t Ht). destruct HE as (zs & -> & HZ). apply in_map_iff in Ht as (a & <- & Ha). rewrite Forall_forall in HZ. pose proof (HZ a Ha) as Hz. cbn [zval real_of] in *.
    apply lt_IZR in HN. replace (8 * (if d =? 5 then 4 else 8) - 1) with (if d =? 5 then 31 else 63) by (destruct (d =? 5); reflexivity).
    assert (0 < 2 ^ (if d =? 5 then 31 else 63)) by (destruct (d =? 5); reflexivity).
    rewrite (proj2 (Z.leb_le _ _)), (proj2 (Z.ltb_lt _ _)) by lia. cbn [andb]. eauto.
  Qed.

  Lemma decay_right d V (vs ts : list (num real)) T U rate : 5 <= d <= 12 -> stored d = Some V -> elements_ok d ts -> times_ok d keys ts -> Forall (fun k => k <= n) keys ->
    length vs = length keys -> length ts = length keys -> im = None \/ rm = None ->
    exists out, run_kernel A exp Ropp junk DECAY T U V keys vs ts im rm rate n = Some out /\ average_rows 301 rate keys vs ts im rm (fnanv A D64) out.
  Proof.
    intros HD HV HE HT Hk Lv Lt HM. cbn [run_kernel average_rows]. pose proof RA as (Z0 & _ & _ & _ & S). destruct (S D64) as (Sa & _ & Sm). unfold decay_by. rewrite Z0, Sa, Sm.
    destruct (EmaDecay_ok keys vs ts n im rm (fnanv A D64) (to64 A) (zero_of A T) rate (delta A V) real_of (zero_of A V) Hn Hk Lv Lt Hi Hr HM (zero_real T)
      (fun t => from_zero d V ts t HD HV HE) (times_exact d V ts HD HV HE HT)) as (res & -> & B). eexists. split; [reflexivity|].
    apply (by_group_map (@R real)) in B. eapply by_group_imp; [exact B|]. intros i v _ (x & -> & H). exists x. split; [reflexivity|]. eapply decay_row_ext; [|exact H]. exact to64_real.
  Qed.
  Lemma ws_length : Z.of_nat (length (map junk (seq 0 (Z.to_nat (n + 1))))) = n + 1.
  Proof. rewrite map_length, seq_length. lia. Qed.
  Lemma normal_right d V (vs ts : list (num real)) T U rate : 5 <= d <= 12 -> stored d = Some V -> elements_ok d ts -> times_ok d keys ts -> (In d [5; 7; 9] -> Forall (fun t => real_of t < 0)%R ts) ->
    Forall (fun k => 0 <= k <= n) keys -> length vs = length keys -> length ts = length keys ->
    exists out, run_kernel A exp Ropp junk NORMAL T U V keys vs ts None None rate n = Some out /\ average_rows 304 rate keys vs ts None None (fnanv A D64) out.
  Proof.
    intros HD HV HE HT HF Hk Lv Lt. cbn [run_kernel average_rows]. pose proof RA as (Z0 & O & _ & LT & S). destruct (S D64) as (Sa & Ss & Sm). unfold decay_by. rewrite Z0, O, Sa, Ss, Sm.
    destruct (EmaNormal_ok keys vs ts n (fnanv A D64) (to64 A) (zero_of A T) (negative A) (fun x => exp (- rate * x)) (delta A V) (zero_of A V) (large_negative A V) _ Hk Lv Lt ws_length
      (fun t => from_large d V ts t HD HV HE HF)) as (res & E & B).
    { intros i j k ti tj Hj E1 E2 E3 E4. eexists. exact (times_exact d V ts HD HV HE HT i j k ti tj Hj E1 E2 E3 E4). }
    rewrite E. eexists. split; [reflexivity|]. apply (by_group_map (@R real)) in B. eapply by_group_imp; [exact B|]. intros i v _ (x & -> & H). exists x. split; [reflexivity|].
    eapply average_row_ext; [exact to64_real| |exact H]. intros i' j k ti tj Hj E1 E2 E3 E4. unfold weight_of, kept, negative.
    rewrite (times_exact d V ts HD HV HE HT i' j k ti tj Hj E1 E2 E3 E4), LT, Z0, Rminus_0_r. reflexivity.
  Qed.
  Lemma weighted_right V (vs ts : list (num real)) T U rate : Forall (fun k => 0 <= k <= n) keys -> length vs = length keys ->
    exists out, run_kernel A exp Ropp junk WEIGHTED T U V keys vs ts None None rate n = Some out /\ average_rows 305 rate keys vs ts None None (fnanv A D64) out.
  Proof.
    intros Hk Lv. cbn [run_kernel average_rows]. pose proof RA as (Z0 & O & _ & LT & S). destruct (S D64) as (Sa & Ss & Sm). rewrite Z0, O, Sa, Ss, Sm.
    destruct (EmaWeighted_ok keys vs n (fnanv A D64) (to64 A) (zero_of A T) _ Hk Lv ws_length rate) as (res & E & B).
    rewrite E. eexists. split; [reflexivity|]. apply (by_group_map (@R real)) in B. eapply by_group_imp; [exact B|]. intros i v _ (x & -> & H). exists x. split; [reflexivity|].
    eapply average_row_ext; [exact to64_real| |exact H]. intros i' j k ti tj _ _ _ _ _. reflexivity.
  Qed.
End Real.

Lemma table_average func d td : In func averages -> 0 <= d <= 13 -> 5 <= td <= 12 -> exists f T, efun_of func = Some f /\ GetEmaByFunction f (ty_of d) (ty_of td) = Some (F64, F64) /\
  out_num f d F64 = 12 /\ stored d = Some T /\ f <> FINDNTH /\ match func with 301 => f = DECAY | 304 => f = NORMAL | _ => f = WEIGHTED end.
Proof.
  cbn [averages In]. intros HF HD HT. assert (E : GetEmaByFunction DECAY (ty_of d) (ty_of td) = Some (F64, F64)).
  { assert (HI : In td [5; 6; 7; 8; 9; 10; 11; 12]) by (cbn [In]; lia). assert (HI' : In d [0; 1; 2; 3; 4; 5; 6; 7; 8; 9; 10; 11; 12; 13]) by (cbn [In]; lia). clear HD HT. cbn [In] in HI, HI'. each_func HI; each_func HI'; reflexivity. }
  assert (HS : exists T, stored d = Some T). { clear - HD. each_dtype d HD; eexists; reflexivity. } destruct HS as (T & HS).
  each_func HF; eexists; exists T; (split; [reflexivity|]); (split; [exact E|]); (split; [reflexivity|]); (split; [exact HS|]); (split; [discriminate|reflexivity]).
Qed.
Lemma averages_right (A : arith real) junk key unique func cs (a : arg (num real)) include reset rate :
  real_arith A -> key_ok key -> k_step key = 1 \/ k_len key <= 1 -> Forall (fun k => k <= unique) (key_vals key) -> 0 <= unique -> (unique + 1) * 16 < 2 ^ 63 -> cs <> [] ->
  Forall (shaped (k_len key)) cs -> In func averages -> mask_given (k_len key) include -> mask_given (k_len key) reset -> arg_ok (k_len key) a -> gapless a ->
  averages_ok func (key_vals key) a include reset ->
  exists res, EmaAll32 A exp Ropp junk (map OArray cs) key unique func (PTuple (Some rate) (PArray a) include reset) = Done res /\
    Forall2 (average_answer A func rate (key_vals key) (arg_vals (I 0) a) (mask_vals include) (mask_vals reset)) cs res.
Proof.
  intros RA KO KC HK H0 HU NE HS HF HI HR AOK GA (HD & HE & HT & H1 & H2 & H3). assert (HL : 0 <= k_len key) by apply KO.
  assert (LK : length (key_vals key) = Z.to_nat (k_len key)) by (pose proof (key_vals_length key HL); lia).
  apply (call_right A exp Ropp junk _ cs key unique func rate (PArray a) include reset (I 0) KO KC); try assumption.
  - unfold int64_ok. rewrite (proj2 (Z.leb_le _ _)), (proj2 (Z.ltb_lt _ _)) by lia. reflexivity.
  - clear - HF. cbn [averages In] in HF. each_func HF; reflexivity.
  - cbn [time_given]. split; [lia|auto].
  - intros c Hc. rewrite Forall_forall in HS. destruct (HS c Hc) as (_ & _ & LC & _). unfold one_column, average_answer. cbn [time_vals i_dtype i_vals].
    assert (SZ : (unique <? -1) || (2 ^ 63 <=? (unique + 1) * 16) = false) by (apply orb_false_iff; split; [apply Z.ltb_ge; lia|apply Z.leb_gt; lia]).
    destruct ((0 <=? c_dtype c) && (c_dtype c <=? 13)) eqn:ED.
    + apply andb_true_iff in ED as (E1 & E2). apply Z.leb_le in E1. apply Z.leb_le in E2.
      destruct (table_average func (c_dtype c) (a_dtype a) HF (conj E1 E2) HD) as (f & T & -> & -> & -> & HT' & NF & EF). rewrite SZ, HT'. change (ty_eqb F64 F64) with true. cbn [negb andb]. change (stored 12) with (Some (CF 8)).
      assert (HV : exists V, stored (a_dtype a) = Some V). { assert (HI' : 0 <= a_dtype a <= 13) by lia. clear - HI'. destruct a as [ad ? ? ? ?]. cbn [a_dtype] in *. each_dtype ad HI'; eexists; reflexivity. }
      destruct HV as (V & HV). rewrite HV.
      assert (LV : length (c_vals c) = length (key_vals key)) by lia. assert (LT : length (arg_vals (I 0) a) = length (key_vals key)) by (rewrite (arg_vals_length _ _ _ AOK); lia).
      pose proof (mask_vals_ok _ _ HL HI) as MI. pose proof (mask_vals_ok _ _ HL HR) as MR. rewrite <- LK in MI, MR.
      assert (G : exists out, run_kernel A exp Ropp junk f T (CF 8) V (key_vals key) (c_vals c) (arg_vals (I 0) a) (mask_vals include) (mask_vals reset) rate unique = Some out /\
                   average_rows func rate (key_vals key) (c_vals c) (arg_vals (I 0) a) (mask_vals include) (mask_vals reset) (fnanv A (CF 8)) out).
      { cbn [averages In] in HF. each_func HF; try subst f.
        - apply (decay_right A RA junk (key_vals key) unique H0 _ _ MI MR (a_dtype a)); auto. destruct (H1 eq_refl) as [-> | ->]; auto.
        - destruct (H2 ltac:(discriminate)) as (-> & -> & Pk). cbn [mask_vals]. apply (normal_right A RA junk (key_vals key) unique H0 (a_dtype a)); auto.
          rewrite Forall_forall in *. intros k Hk. split; auto.
        - destruct (H2 ltac:(discriminate)) as (-> & -> & Pk). cbn [mask_vals]. apply (weighted_right A RA junk (key_vals key) unique H0); auto. rewrite Forall_forall in *. intros k Hk. split; auto. }
      destruct G as (out & E & SP). rewrite E. exists (Some (12, out)). split; [|eauto]. destruct f; congruence || reflexivity.
    + rewrite (ty_other (c_dtype c)). { exists None. split; [|reflexivity]. cbn [averages In] in HF. each_func HF; reflexivity. }
      intros (E1 & E2). apply andb_false_iff in ED as [ED | ED]; apply Z.leb_gt in ED; lia.
Qed.

Lemma running_right {F} (A : arith F) fexp fneg junk key unique func cs time include reset rate :
  arith_ok A -> key_ok key -> k_step key = 1 \/ k_len key <= 1 -> Forall (fun k => k <= unique) (key_vals key) -> 0 <= unique -> (unique + 1) * 16 < 2 ^ 63 -> cs <> [] ->
  Forall (column_given (k_len key)) cs -> In func running -> mask_given (k_len key) include -> mask_given (k_len key) reset -> time_given (k_len key) time ->
  (func = 303 -> k_len key < 2 ^ 31) -> (In func [306; 307; 308; 309] -> include = PNone -> reset = PNone -> Forall (fun k => 0 <= k) (key_vals key)) ->
  exists res, EmaAll32 A fexp fneg junk (map OArray cs) key unique func (PTuple (Some rate) time include reset) = Done res /\
    Forall2 (column_answer A func (key_vals key) (mask_vals include) (mask_vals reset)) cs res.
Proof.
  intros AO KO KC HK H0 HU NE HS HF HI HR HT H3 HE. assert (HL : 0 <= k_len key) by apply KO.
  assert (LK : length (key_vals key) = Z.to_nat (k_len key)) by (pose proof (key_vals_length key HL); lia).
  apply (call_right A fexp fneg junk _ cs key unique func rate time include reset (I 0) KO KC); try assumption.
  - unfold int64_ok. rewrite (proj2 (Z.leb_le _ _)), (proj2 (Z.ltb_lt _ _)) by lia. reflexivity.
  - clear - HF. cbn [running In] in HF. each_func HF; reflexivity.
  - eapply Forall_impl; [|exact HS]. intros c Hc. apply Hc.
  - intros c Hc. rewrite Forall_forall in HS. destruct (HS c Hc) as ((_ & _ & LC & _) & HEl).
    pose proof (mask_vals_ok _ _ HL HI) as MI. pose proof (mask_vals_ok _ _ HL HR) as MR. rewrite <- LK in MI, MR.
    apply (column_right A AO fexp fneg junk (key_vals key) unique H0 HK _ _ MI MR func c); auto; [lia|intros E; specialize (H3 E); lia|].
    intros HP HM. apply HE; auto; [destruct include as [|b|]|destruct reset as [|b|]]; auto; try contradiction; cbn in HP; try discriminate.
    destruct include; discriminate.
Qed.

(** ** What is refused, and what gives no column *)
Section Refused.
  Context {F : Type} (A : arith F) (fexp fneg : F -> F) (junk : nat -> F).
  Notation call := (EmaAll32 A fexp fneg junk).

  Lemma wrong_mask n p : mask_wrong n p -> check_mask n p = Error.
  Proof. intros (a & -> & H). cbn [check_mask]. destruct (Z.eqb_spec (a_dtype a) 0), (Z.eqb_spec (a_len a) n); try reflexivity. destruct H; contradiction. Qed.
  Lemma wrong_time n (p : param (num F)) : time_wrong n p -> check_time n p = Error.
  Proof.
    intros (a & -> & H). cbn [check_time]. destruct (Z.ltb_spec (a_dtype a) 5), (Z.ltb_spec 13 (a_dtype a)), (Z.eqb_spec (a_len a) n); try reflexivity. destruct H as [H | H]; [|contradiction]. exfalso. apply H. lia.
  Qed.
  Lemma bad_key cols key unique func ps : ~ In (k_dtype key) [1; 3; 5; 7; 9] -> call cols key unique func ps = Error.
  Proof.
    intros H. unfold EmaAll32. destruct (int64_ok unique && int64_ok func); [|reflexivity]. cbn [negb]. destruct ps as [[r|] t i s|]; try reflexivity.
    replace (existsb _ _) with false; [reflexivity|]. symmetry. apply not_true_iff_false. intros E. apply existsb_exists in E as (x & Hx & E). apply Z.eqb_eq in E. subst x. auto.
  Qed.
  Lemma bad_params cols key unique func ps : ps = PWrong \/ (exists t i r, ps = PTuple None t i r) -> call cols key unique func ps = Error.
  Proof. intros H. unfold EmaAll32. destruct (int64_ok unique && int64_ok func); [|reflexivity]. cbn [negb]. destruct H as [-> | (t & i & r & ->)]; reflexivity. Qed.
  Lemma bad_numbers cols key unique func ps : ~ (- 2 ^ 63 <= unique < 2 ^ 63) \/ ~ (- 2 ^ 63 <= func < 2 ^ 63) -> call cols key unique func ps = Error.
  Proof.
    intros H. unfold EmaAll32. replace (int64_ok unique && int64_ok func) with false; [reflexivity|]. symmetry. unfold int64_ok.
    destruct (Z.leb_spec (- 2 ^ 63) unique), (Z.ltb_spec unique (2 ^ 63)), (Z.leb_spec (- 2 ^ 63) func), (Z.ltb_spec func (2 ^ 63)); try reflexivity. exfalso. destruct H as [H | H]; apply H; lia.
  Qed.
  Lemma bad_reset cols key unique func rate t i r : mask_wrong (k_len key) r -> call cols key unique func (PTuple rate t i r) = Error.
  Proof.
    intros H. unfold EmaAll32. destruct (int64_ok unique && int64_ok func); [|reflexivity]. cbn [negb]. destruct rate; [|reflexivity]. destruct (existsb _ _); [|reflexivity]. cbn [negb].
    now rewrite (wrong_mask _ _ H).
  Qed.
  Lemma bad_include cols key unique func rate t i r : 0 <= k_len key -> mask_given (k_len key) r -> mask_wrong (k_len key) i -> call cols key unique func (PTuple rate t i r) = Error.
  Proof.
    intros HL HR H. unfold EmaAll32. destruct (int64_ok unique && int64_ok func); [|reflexivity]. cbn [negb]. destruct rate; [|reflexivity]. destruct (existsb _ _); [|reflexivity]. cbn [negb].
    destruct (mask_checked _ _ HL HR) as (o & -> & _). cbn [obind]. now rewrite (wrong_mask _ _ H).
  Qed.
  Lemma bad_time cols key unique func rate t i r : 0 <= k_len key -> mask_given (k_len key) r -> mask_given (k_len key) i -> time_wrong (k_len key) t -> call cols key unique func (PTuple rate t i r) = Error.
  Proof.
    intros HL HR HI H. unfold EmaAll32. destruct (int64_ok unique && int64_ok func); [|reflexivity]. cbn [negb]. destruct rate; [|reflexivity]. destruct (existsb _ _); [|reflexivity]. cbn [negb].
    destruct (mask_checked _ _ HL HR) as (o & -> & _). cbn [obind]. destruct (mask_checked _ _ HL HI) as (o' & -> & _). cbn [obind]. now rewrite (wrong_time _ _ H).
  Qed.
  Lemma bad_columns cols key unique func rate t i r : 0 <= k_len key -> mask_given (k_len key) r -> mask_given (k_len key) i -> time_given (k_len key) t -> BuildArrayInfo cols = Error ->
    call cols key unique func (PTuple rate t i r) = Error.
  Proof.
    intros HL HR HI HT E. unfold EmaAll32. destruct (int64_ok unique && int64_ok func); [|reflexivity]. cbn [negb]. destruct rate; [|reflexivity]. destruct (existsb _ _); [|reflexivity]. cbn [negb].
    destruct (mask_checked _ _ HL HR) as (o & -> & _). cbn [obind]. destruct (mask_checked _ _ HL HI) as (o' & -> & _). cbn [obind]. destruct (time_checked (I 0) _ _ HL HT) as (to & tl & -> & _). cbn [obind].
    now rewrite E.
  Qed.
  Lemma not_columns n cs o rest : Forall (shaped (F := F) n) cs -> o = OOther \/ (exists c, o = OArray c /\ (c_dtype c = -1 \/ c_ndim c <> 0 /\ c_ndim c <> 1)) -> BuildArrayInfo (map OArray cs ++ o :: rest) = Error.
  Proof.
    intros H HO. unfold BuildArrayInfo. rewrite each_error; [reflexivity| |].
    - intros o' Ho. apply in_map_iff in Ho as (c & <- & Hc). rewrite Forall_forall in H. eexists. apply (build_shaped n); auto.
    - destruct HO as [-> | (c & -> & B)]; [reflexivity|]. cbn [build_one]. destruct (Z.eqb_spec (c_dtype c) (-1)); [reflexivity|]. destruct B as [B | [B0 B1]]; [contradiction|].
      rewrite (proj2 (Z.eqb_neq _ _) B0), (proj2 (Z.eqb_neq _ _) B1). reflexivity.
  Qed.
  Lemma odd_columns (c c' : column F) n n' : shaped n c -> shaped n' c' -> n <> n' -> BuildArrayInfo [OArray c; OArray c'] = Error.
  Proof.
    intros H H' N. unfold BuildArrayInfo. cbn [each]. rewrite (build_shaped n c H), (build_shaped n' c' H'). cbn [obind forallb hd i_vals]. rewrite Nat.eqb_refl. cbn [andb].
    destruct (Nat.eqb_spec (length (c_vals c')) (length (c_vals c))) as [E | _]; [|reflexivity]. exfalso. destruct H as (_ & _ & L & _), H' as (_ & _ & L' & _). lia.
  Qed.

  Lemma no_column key unique func cs time include reset rate :
    key_ok key -> k_step key = 1 \/ k_len key <= 1 -> - 2 ^ 63 <= unique < 2 ^ 63 -> 0 <= func < 2 ^ 32 -> cs <> [] -> Forall (shaped (k_len key)) cs ->
    mask_given (k_len key) include -> mask_given (k_len key) reset -> time_given (k_len key) time ->
    ~ In func running /\ ~ In func averages \/ In func averages /\ time = PNone ->
    call (map OArray cs) key unique func (PTuple (Some rate) time include reset) = Done (map (fun _ => None) cs).
  Proof.
    intros KO KC HU HF NE HS HI HR HT HN.
    destruct (call_right A fexp fneg junk (fun _ r => r = None) cs key unique func rate time include reset (I 0) KO KC) as (res & -> & HP); try assumption.
    - unfold int64_ok. rewrite (proj2 (Z.leb_le _ _)), (proj2 (Z.ltb_lt _ _)) by lia. reflexivity.
    - unfold int64_ok. rewrite (proj2 (Z.leb_le _ _)), (proj2 (Z.ltb_lt _ _)) by lia. reflexivity.
    - intros c _. exists None. split; [|reflexivity]. destruct HN as [(N1 & N2) | (HA & ->)].
      + replace (efun_of func) with (@None efun); [reflexivity|]. symmetry. unfold efun_of. rewrite Z.mod_small by exact HF.
        cbn [running averages In] in N1, N2. clear - N1 N2. destruct func as [|p|p]; try reflexivity. do 9 (destruct p as [p|p|]; try reflexivity); exfalso; tauto.
      + cbn [averages In] in HA. unfold one_column. cbn [time_vals i_dtype]. each_func HA; cbn; destruct (ty_of (c_dtype c)); reflexivity.
    - f_equal. clear - HP. induction HP as [|c r cs rs E _ IH]; [reflexivity|]. cbn [map]. now rewrite E, IH.
  Qed.
End Refused.
