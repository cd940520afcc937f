(** Numbers in memory; files that can be stacked. *)
From Coq Require Import SpecFloat Reals.
From Flocq Require Import Core BinarySingleNaN.
From Verif Require Import Base MemLemmas Inter ConvModel ConvSpec ConvProofs StackModel StackSpec StackProofs Stack2Proofs Stack3Proofs Stack4Proofs Stack5Proofs Stack6Proofs Stack7Proofs.
From Verif Require SdsProofs.
Local Open Scope Z_scope.

(** ** Floating point numbers in memory *)
Lemma decode fr ex s x f : 0 <= fr -> 0 <= ex -> 0 <= f < 2 ^ fr -> 0 <= x < 2 ^ ex ->
  let z := (if s : bool then 2 ^ (fr + ex) else 0) + x * 2 ^ fr + f in
  z mod 2 ^ fr = f /\ (z / 2 ^ fr) mod 2 ^ ex = x /\ Z.odd (z / 2 ^ (fr + ex)) = s /\ 0 <= z < 2 ^ (fr + ex + 1).
Proof.
  intros Hf He F X z. set (a := 2 ^ fr) in *. set (b := 2 ^ ex) in *.
  assert (Pa : 0 < a) by (apply Z.pow_pos_nonneg; lia). assert (Pb : 0 < b) by (apply Z.pow_pos_nonneg; lia).
  assert (Eab : 2 ^ (fr + ex) = b * a) by (rewrite Z.pow_add_r by lia; fold a b; ring).
  assert (E2 : 2 ^ (fr + ex + 1) = 2 * (b * a)) by (rewrite Z.pow_add_r, Eab by lia; change (2 ^ 1) with 2; ring).
  set (sg := if s then 1 else 0). assert (Hs : sg = 0 \/ sg = 1) by (unfold sg; destruct s; auto).
  assert (Ez : z = f + (x + sg * b) * a) by (unfold z, sg; rewrite Eab; destruct s; ring).
  assert (D1 : z / a = x + sg * b) by (rewrite Ez, Z.div_add, Z.div_small by lia; lia).
  split. { rewrite Ez, Z.mod_add, Z.mod_small by lia. reflexivity. }
  split. { rewrite D1, Z.mod_add, Z.mod_small by lia. reflexivity. }
  split.
  - rewrite Eab, (Z.mul_comm b a), <- Z.div_div by lia. rewrite D1, Z.div_add, Z.div_small by lia. unfold sg. now destruct s.
  - rewrite E2, Ez. assert (A1 : 0 <= (x + sg * b) * a) by nia. assert (A2 : (x + sg * b + 1) * a <= 2 * b * a) by (apply Z.mul_le_mono_nonneg_r; nia). nia.
Qed.
Lemma digits2_bounds m : 2 ^ (Zpos (digits2_pos m) - 1) <= Zpos m < 2 ^ Zpos (digits2_pos m).
Proof.
  rewrite Digits.Zpos_digits2_pos. pose proof (Digits.Zdigits_correct radix2 (Zpos m)) as H. simpl Z.abs in H. exact H.
Qed.
Lemma valid_finite t s m e : is_float t = true -> valid_binary (prec t) (emax t) (S754_finite s m e) = true ->
  (e = least t /\ Zpos m < 2 ^ (prec t - 1)) \/ (least t <= e <= emax t - prec t /\ 2 ^ (prec t - 1) <= Zpos m < 2 ^ prec t).
Proof.
  intros Ft H. unfold valid_binary, bounded in H. apply andb_true_iff in H as [H1 H2]. unfold canonical_mantissa in H1. apply Zeq_bool_eq in H1. unfold fexp, SpecFloat.fexp, SpecFloat.emin in H1. apply Z.leb_le in H2.
  pose proof (digits2_bounds m) as D. set (d := Zpos (digits2_pos m)) in *. assert (Hd : 0 < d) by (unfold d; lia). clearbody d.
  assert (Hp : 0 < prec t) by (destruct t; reflexivity). unfold least.
  destruct (Z.le_gt_cases d (prec t - 1)) as [L|L].
  - left. split; [lia|]. eapply Z.lt_le_trans; [apply D|]. apply Z.pow_le_mono_r; lia.
  - right. assert (d = prec t) by lia. rewrite <- H. split; [lia|auto].
Qed.
Lemma float_round t f : is_float t = true -> valid_binary (prec t) (emax t) f = true ->
  to_float t (of_float t f) = f /\ 0 <= of_float t f < 2 ^ (frac_bits t + exp_bits t + 1).
Proof.
  intros Ft V.
  assert (P : prec t - 1 <= frac_bits t <= prec t /\ 2 <= prec t - 1 /\ 0 < exp_bits t /\ 2 * emax t = 2 ^ exp_bits t /\ hidden t = (if frac_bits t =? prec t then 0 else 2 ^ frac_bits t) /\
     emax t - prec t - least t + 1 < 2 ^ exp_bits t - 1).
  { destruct t; try discriminate Ft; vm_compute; repeat split; try reflexivity; discriminate. }
  destruct P as (P1 & P2 & P3 & P4 & P5 & P6).
  assert (Pe : 2 <= 2 ^ exp_bits t) by (apply (Z.pow_le_mono_r 2 1); lia).
  destruct f as [s|s| |s m e].
  - destruct (decode (frac_bits t) (exp_bits t) s 0 0) as (D1 & D2 & D3 & D4); try lia.
    rewrite Z.mul_0_l, !Z.add_0_r in *. unfold of_float, to_float. rewrite D1, D2, D3. replace (0 =? 2 ^ exp_bits t - 1) with false by lia. rewrite Z.eqb_refl. auto.
  - set (top := match t with F80 => 2 ^ 63 | _ => 0 end).
    assert (T : 0 <= top < 2 ^ frac_bits t /\ top mod 2 ^ (prec t - 1) = 0) by (destruct t; try discriminate Ft; vm_compute; repeat split; try reflexivity; discriminate). destruct T as [T1 T2].
    destruct (decode (frac_bits t) (exp_bits t) s (2 ^ exp_bits t - 1) top) as (D1 & D2 & D3 & D4); try lia.
    unfold of_float, to_float. fold top. rewrite Z.add_assoc, D1, D2, D3. rewrite Z.eqb_refl, T2, Z.eqb_refl. auto.
  - set (top := match t with F80 => 2 ^ 63 | _ => 0 end).
    assert (T : 0 <= top + 2 ^ (prec t - 2) < 2 ^ frac_bits t /\ (top + 2 ^ (prec t - 2)) mod 2 ^ (prec t - 1) <> 0) by (destruct t; try discriminate Ft; vm_compute; repeat split; try reflexivity; discriminate). destruct T as [T1 T2].
    destruct (decode (frac_bits t) (exp_bits t) false (2 ^ exp_bits t - 1) (top + 2 ^ (prec t - 2))) as (D1 & D2 & D3 & D4); try lia.
    rewrite Z.add_0_l in *. unfold of_float, to_float. fold top. rewrite <- Z.add_assoc, D1, D2. rewrite Z.eqb_refl. replace (_ =? 0) with false by lia. auto.
  - unfold of_float. destruct (valid_finite t s m e Ft V) as [[E L]|[E L]].
    + replace (Zpos m <? 2 ^ (prec t - 1)) with true by lia.
      assert (2 ^ (prec t - 1) <= 2 ^ frac_bits t) by (apply Z.pow_le_mono_r; lia).
      destruct (decode (frac_bits t) (exp_bits t) s 0 (Zpos m)) as (D1 & D2 & D3 & D4); try lia.
      rewrite Z.mul_0_l, Z.add_0_r in *. unfold to_float. rewrite D1, D2, D3. replace (0 =? 2 ^ exp_bits t - 1) with false by lia. rewrite Z.eqb_refl, E. auto.
    + replace (Zpos m <? 2 ^ (prec t - 1)) with false by lia.
      assert (H : 0 <= Zpos m - hidden t < 2 ^ frac_bits t).
      { rewrite P5. destruct (Z.eqb_spec (frac_bits t) (prec t)) as [Q|Q]. { rewrite Q. lia. }
        assert (Q' : frac_bits t = prec t - 1) by lia. rewrite Q'. replace (2 ^ prec t) with (2 * 2 ^ (prec t - 1)) in L; [lia|]. rewrite <- Z.pow_succ_r by lia. f_equal. lia. }
      destruct (decode (frac_bits t) (exp_bits t) s (e - least t + 1) (Zpos m - hidden t)) as (D1 & D2 & D3 & D4); try lia.
      rewrite Z.add_assoc. unfold to_float. rewrite D1, D2, D3. replace (_ =? 2 ^ exp_bits t - 1) with false by lia. replace (e - least t + 1 =? 0) with false by lia.
      replace (Zpos m - hidden t + hidden t) with (Zpos m) by lia. split; auto. f_equal. lia.
Qed.
Lemma dec_enc t v : typed t v -> dec t (enc t v) = v.
Proof.
  intros T. unfold dec, enc. rewrite SdsProofs.unle_le.
  assert (E : 256 ^ Z.of_nat (Z.to_nat (size t)) = 2 ^ bits t) by (destruct t; reflexivity). rewrite E.
  destruct v as [z|f]; destruct T as [Ft T]; rewrite Ft.
  - f_equal. destruct (is_signed t) eqn:S.
    + assert (Hb : 0 < bits t) by (destruct t; reflexivity). unfold lo, hi in T. rewrite S in T.
      assert (T' : - 2 ^ (bits t - 1) <= z < 2 ^ (bits t - 1)) by (destruct t; try discriminate S; lia).
      unfold Mem.wrap. rewrite Z.mod_mod by (apply Z.pow_nonzero; lia). exact (wrap_id (bits t) z Hb T').
    + apply Z.mod_small. unfold lo, hi in T. rewrite S in T. destruct t; try discriminate S; try discriminate Ft; cbn [bits] in *; lia.
  - f_equal. destruct (float_round t f Ft T) as [R1 R2]. rewrite Z.mod_small; auto. split; [lia|]. eapply Z.lt_le_trans; [apply R2|]. apply Z.pow_le_mono_r; [lia|]. destruct t; try discriminate Ft; vm_compute; discriminate.
Qed.

Lemma convert_item_putmask t u x : t <> u -> u <> Bool -> ConvertItem t u x = convert_putmask t u x.
Proof.
  intros N Nb. unfold ConvertItem, convert_putmask, GetConversionPutMask.
  destruct (dtype_beq t u) eqn:E. { now apply internal_dtype_dec_bl in E. }
  destruct u; try (now elim Nb); destruct t; reflexivity.
Qed.
Lemma number_kept t u x y r : t <> Bool \/ u = Bool -> below t u = true -> number_item t u x y -> typed t (dec t x) -> invalid t <> Some (dec t x) -> denotes (dec t x) r -> representable u r ->
  typed u (dec u y) /\ denotes (dec u y) r.
Proof.
  intros Hb Bl H T N D R. unfold number_item in H. destruct (dtype_beq t u) eqn:E. { apply internal_dtype_dec_bl in E. subst. auto. }
  assert (Ne : t <> u) by (intros ->; rewrite internal_dtype_dec_lb in E; congruence).
  assert (Nu : u <> Bool). { intros ->. apply Ne. now apply (below_parts _ _ Bl). }
  destruct H as (v & C & ->). rewrite convert_item_putmask in C by auto. destruct (putmask_keeps t u Hb _ _ T N D R) as (w & W1 & W2 & W3).
  assert (v = w) by congruence. subst w. rewrite dec_enc; auto.
Qed.
Lemma invalid_typed u v : invalid u = Some v -> typed u v.
Proof. destruct u; cbn [invalid]; intros [= <-]; (split; [reflexivity|]); try reflexivity; vm_compute; split; discriminate. Qed.
Lemma number_invalid t u x y v w : below t u = true -> number_item t u x y -> invalid t = Some v -> invalid u = Some w -> dec t x = v -> dec u y = w.
Proof.
  intros Bl H V W E. unfold number_item in H. destruct (dtype_beq t u) eqn:Q. { apply internal_dtype_dec_bl in Q. subst. congruence. }
  assert (Ne : t <> u) by (intros ->; rewrite internal_dtype_dec_lb in Q; congruence).
  assert (Nu : u <> Bool). { intros ->. discriminate W. }
  destruct H as (z & C & ->). rewrite convert_item_putmask in C by auto. rewrite E, (putmask_invalid t u v w V W) in C. inversion C; subst z.
  apply dec_enc. now apply invalid_typed.
Qed.

(** ** Files that can be stacked *)
Definition like (k o : block) : Prop :=
  tl (b_dims k) = tl (b_dims o) /\ b_dims k <> [] /\ b_c k = true /\ b_f k = b_f o /\ ((number_block k /\ number_block o) \/ (text_block k /\ text_block o)).
Lemma compare_flags m o fix_ : b_c (fst (fst (fst (compare_types m o fix_)))) = b_c m /\ b_f (fst (fst (fst (compare_types m o fix_)))) = b_f m.
Proof.
  unfold compare_types, same_class, with_float, with_sign. destruct fix_;
  repeat (match goal with |- context [if ?c then _ else _] => destruct c; cbn [fst andb] end); split; reflexivity.
Qed.
Lemma compat_like k o : like k o -> b_dims o <> [] -> exists m c, IsArrayCompatible k o true = (m, c) /\ c_ok c = true /\ c_rot c = false /\ like m o.
Proof.
  intros (Tl & Dk & Ck & Fk & Ty) Do.
  assert (C : exists m1 str conv, compare_types k o true = (m1, true, str, conv) /\ ((number_block m1 /\ number_block o) \/ (text_block m1 /\ text_block o))).
  { destruct Ty as [[(u & U1 & U2) (t & T1 & T2)]|[Tk To]].
    - destruct (compare_numbers k o u t U1 U2 T1 T2) as (m1 & conv & E & G1 & G2 & _). exists m1, false, conv. split; auto. left. split; [exists (join u t)|exists t]; auto.
    - destruct (compare_texts k o (conj (or_intror Tk) Dk) Tk To (eq_sym Tl)) as (m1 & str & conv & E & G1 & _). exists m1, str, conv. auto. }
  destruct C as (m1 & str & conv & E & G). pose proof (compare_dims k o true) as Ed. pose proof (compare_flags k o true) as [Ec Ef]. rewrite E in *. cbn [fst] in *.
  exists m1. unfold IsArrayCompatible. rewrite E.
  assert (N : ndim m1 = ndim o). { unfold ndim. rewrite Ed. destruct (b_dims k), (b_dims o); try congruence. simpl in *. congruence. }
  rewrite N, Z.eqb_refl. cbn [negb]. rewrite Ed, Tl, same_dims_refl, Ef, Fk. rewrite Bool.eqb_reflx. cbn [negb]. rewrite andb_false_r.
  assert (L : like m1 o). { split; [congruence|]. split; [congruence|]. split; [congruence|]. split; [congruence|auto]. }
  destruct (1 <? ndim o); eexists; (split; [reflexivity|]); auto.
Qed.

Lemma kinds b : number_block b -> text_block b -> False.
Proof. intros (t & T & _) H. destruct (text_fixed b H) as (_ & N & _). congruence. Qed.
Lemma like_trans k a b : like k a -> alike a b -> like k b.
Proof.
  intros (L1 & L2 & L3 & L4 & L5) (A1 & A2 & A3 & A4 & A5). split; [congruence|]. split; auto. split; auto. split; [congruence|].
  destruct L5 as [[L5 L6]|[L5 L6]], A5 as [[A5 A6]|[A5 A6]]; auto; exfalso; apply (kinds a); auto.
Qed.
Definition peaceful (cols : list column) (t : table) : Prop := t_problems t = 0 /\ Forall (fun kg => exists c, In c cols /\ co_name c = k_name kg /\ like (k_block kg) (fst (co_part c))) (t_kings t).
Lemma peace_step valid cols pos c t : (forall a b, In a (cols ++ [c]) -> In b (cols ++ [c]) -> co_name a = co_name b -> alike (fst (co_part a)) (fst (co_part b))) -> part_ok (co_part c) ->
  peaceful cols t -> peaceful (cols ++ [c]) (AddColumnList valid pos t c).
Proof.
  intros Al Pc [P K].
  assert (Ic : In c (cols ++ [c])) by (apply in_or_app; right; now left).
  assert (More : forall l, Forall (fun kg => exists c, In c cols /\ co_name c = k_name kg /\ like (k_block kg) (fst (co_part c))) l -> Forall (fun kg => exists c0, In c0 (cols ++ [c]) /\ co_name c0 = k_name kg /\ like (k_block kg) (fst (co_part c0))) l).
  { intros l. apply Forall_impl. intros kg (c0 & H1 & H2). exists c0. split; auto. apply in_or_app. auto. }
  destruct (Al c c Ic Ic eq_refl) as (_ & Cc & _ & _ & Ty).
  assert (Lc : like (fst (co_part c)) (fst (co_part c))). { split; auto. split; [apply (po_dims _ Pc)|]. split; auto. }
  assert (Pb : forall a, c_ok a = true -> c_rot a = false -> problems (fst (co_part c)) a = 0) by (intros a A1 A2; unfold problems; now rewrite A1, A2, Cc).
  unfold AddColumnList. destruct (add_to (t_kings t) pos c) as [[ks p]|] eqn:A.
  - apply add_to_some in A as (l & kg & r & m & a & Ek & Nk & C & -> & ->). rewrite Ek in K. apply Forall_app in K as [K1 K2]. inversion K2 as [|x y (c0 & H1 & H2 & H3) K3]; subst x y.
    assert (H4 : like (k_block kg) (fst (co_part c))). { eapply like_trans; [exact H3|]. apply Al; auto. { apply in_or_app. auto. } congruence. }
    destruct (compat_like _ _ H4) as (m' & a' & C' & A1 & A2 & A3). { apply (po_dims _ Pc). }
    rewrite C in C'. apply pair_equal_spec in C' as [<- <-]. split; cbn [t_problems t_kings]. { rewrite Pb, P by auto. reflexivity. }
    apply Forall_app. split; auto. constructor; auto. cbn [k_name k_block]. exists c. auto.
  - split; cbn [t_problems t_kings]. { rewrite Pb, P by auto. reflexivity. } apply Forall_app. split; auto. constructor; auto. cbn [k_name k_block]. exists c. auto.
Qed.
Lemma alike_scan fs : Forall file_ok fs -> (forall a b, In a (concat (map s_cols fs)) -> In b (concat (map s_cols fs)) -> co_name a = co_name b -> alike (fst (co_part a)) (fst (co_part b))) ->
  t_problems (scan (length fs) 0 fs (Tb [] 0)) = 0.
Proof.
  intros Hf Al. rewrite scan_events.
  assert (G : forall ev, (forall a b, In a (map snd ev) -> In b (map snd ev) -> co_name a = co_name b -> alike (fst (co_part a)) (fst (co_part b))) -> Forall (fun e : nat * column => part_ok (co_part (snd e))) ev ->
    peaceful (map snd ev) (fold_left (add (length fs)) ev (Tb [] 0))).
  { intros ev. induction ev as [|[pos c] ev IH] using rev_ind; intros A P. { split; auto. constructor. }
    rewrite map_app, fold_left_app. cbn [map snd fold_left]. unfold add at 1. cbn [fst snd]. rewrite map_app in A. cbn [map snd] in A. apply Forall_app in P as [P1 P2]. inversion P2; subst.
    apply peace_step; auto. apply IH; auto. intros a b Ha Hb. apply A; apply in_or_app; auto. }
  apply (G (events 0 fs)).
  - rewrite events_cols. exact Al.
  - eapply Forall_impl; [|apply (events_ok fs Hf 0 (length fs)); lia]. intros e [_ H]. exact H.
Qed.
Lemma no_error must reserve fs : valid_files fs <> [] -> (must = true -> length (valid_files fs) = length fs) -> Forall file_ok (valid_files fs) ->
  (forall a b, In a (concat (map s_cols (valid_files fs))) -> In b (concat (map s_cols (valid_files fs))) -> co_name a = co_name b -> alike (fst (co_part a)) (fst (co_part b))) ->
  exists ps, ReadAndStackFiles must reserve fs = Some ps.
Proof.
  intros Ne Hm Hf Al. unfold ReadAndStackFiles.
  assert (E : must && (length (valid_files fs) <? length fs)%nat = false). { destruct must; auto. rewrite Hm by auto. cbn [andb]. apply Nat.ltb_irrefl. }
  rewrite E. destruct (Nat.eqb_spec (length (valid_files fs)) 0) as [L|L]. { exfalso. destruct (valid_files fs); [auto|discriminate]. }
  rewrite (alike_scan _ Hf Al). cbn [Z.eqb negb]. eauto.
Qed.

(** ** Items of a column *)
Lemma column_below must reserve fs ps p f b d t u : ReadAndStackFiles must reserve fs = Some ps -> Forall file_ok (valid_files fs) -> In p ps ->
  In f (valid_files fs) -> part_of (p_name p) f = Some (b, d) -> of_num (fixed b) = Some t -> of_num (fixed (p_block p)) = Some u -> below t u = true.
Proof.
  intros H Hf Hp Hin E Ht Hu. destruct (plan_of _ _ _ _ _ H Hf Hp) as (kg & Gk & ->). destruct (plan_king _ reserve kg Hf Gk) as (Q1 & _ & _ & _ & _ & W & _).
  rewrite Q1 in E. rewrite Forall_forall in W. assert (Hm : In (Some (b, d)) (map (part_of (k_name kg)) (valid_files fs))) by (apply in_map_iff; exists f; auto).
  destruct (W _ Hm) as (_ & [T F] & _). destruct F as [(t' & u' & F1 & F2 & F3 & F4 & F5)|(To & Tk & F)].
  - congruence.
  - destruct (text_fixed _ To) as (_ & N & _). congruence.
Qed.
Lemma column_numbers must reserve fs ps p f b d t u x y r : ReadAndStackFiles must reserve fs = Some ps -> Forall file_ok (valid_files fs) -> In p ps ->
  In f (valid_files fs) -> part_of (p_name p) f = Some (b, d) -> of_num (fixed b) = Some t -> of_num (fixed (p_block p)) = Some u -> t <> Bool \/ u = Bool ->
  item_ok (p_block p) b x y -> typed t (dec t x) -> invalid t <> Some (dec t x) -> denotes (dec t x) r -> representable u r ->
  typed u (dec u y) /\ denotes (dec u y) r.
Proof.
  intros H Hf Hp Hin E Ht Hu Hb I. pose proof (column_below _ _ _ _ _ _ _ _ _ _ H Hf Hp Hin E Ht Hu) as Bl.
  unfold item_ok in I. rewrite Ht, Hu in I. now apply number_kept.
Qed.
Lemma column_invalid must reserve fs ps p f b d t u x y v w : ReadAndStackFiles must reserve fs = Some ps -> Forall file_ok (valid_files fs) -> In p ps ->
  In f (valid_files fs) -> part_of (p_name p) f = Some (b, d) -> of_num (fixed b) = Some t -> of_num (fixed (p_block p)) = Some u ->
  item_ok (p_block p) b x y -> invalid t = Some v -> invalid u = Some w -> dec t x = v -> dec u y = w.
Proof.
  intros H Hf Hp Hin E Ht Hu I. pose proof (column_below _ _ _ _ _ _ _ _ _ _ H Hf Hp Hin E Ht Hu) as Bl.
  unfold item_ok in I. rewrite Ht, Hu in I. now apply number_invalid.
Qed.
