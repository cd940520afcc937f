(** Proofs about BinCount, GroupFromBinCount and MakeiNext from their arguments to their results. *)
From Verif Require Import Base Mem MemLemmas Inter AllModel EaModel EaSpec Ea2Proofs.
From Verif Require Import GroupSpec BgModel BgSpec.
From Verif Require GroupModel GroupProofs Group2Proofs GroupProps.
Local Open Scope Z_scope.

Lemma type_has_function d bits : signed_type d bits -> has_function d = true.
Proof. now intros []. Qed.
Lemma type_bits d bits : signed_type d bits -> bits_of d = bits.
Proof. now intros []. Qed.
Lemma row_dtype_right n : wide_enough n (row_dtype n).
Proof. unfold row_dtype, wide_enough. destruct (Z.ltb_spec 2000000000 n); [right|left]; split; auto; lia. Qed.
Lemma row_dtype_only n d : wide_enough n d -> row_dtype n = d.
Proof. unfold row_dtype, wide_enough. destruct (Z.ltb_spec 2000000000 n); intros [(H1 & ->)|(H1 & ->)]; auto; lia. Qed.
Lemma int64_right z : - 2 ^ 63 <= z < 2 ^ 63 -> int64_ok z = true.
Proof. intros [A B]. unfold int64_ok. rewrite (proj2 (Z.leb_le _ _) A), (proj2 (Z.ltb_lt _ _) B). reflexivity. Qed.

Section Calls.
  Context (ord : sched) (threading : bool) (futex : Z) (junk : nat -> list Z).

  Lemma bincount_opened n a u pack : 0 < n -> 0 < u < 2 ^ 63 -> keys_given n a ->
    BinCountCall ord threading futex junk (PArray a) u pack =
    match GroupModel.BinCount ord threading (get_pack pack) futex (arg_vals 0 a) (Z.of_nat (Z.to_nat u)) (junk (length (arg_vals 0 a))) with
    | GroupModel.BC_error => Error | GroupModel.BC_oob => Undefined
    | GroupModel.BC_counts c => Done (Counts (row_dtype n) c) | GroupModel.BC_packed c g f => Done (Packed (row_dtype n) c g f) end.
  Proof.
    intros HN HU ((bits & T) & OK & G). unfold BinCountCall.
    rewrite int64_right by lia. cbn [negb]. pose proof (proj1 OK) as EL. rewrite EL.
    rewrite (proj2 (Z.eqb_neq u 0)), (proj2 (Z.leb_gt n 0)), (proj2 (Z.ltb_ge u 0)), (type_has_function _ _ T) by lia. cbn [orb negb].
    rewrite (read_arg_right 0 n a) by (auto; lia). cbn [undef obind]. rewrite Z2Nat.id by lia. reflexivity.
  Qed.
  Lemma vals_nonempty n (a : arg Z) : 0 < n -> arg_ok n a -> arg_vals 0 a <> [].
  Proof. intros HN OK E. pose proof (arg_vals_length 0 n a OK) as H. rewrite E in H. cbn in H. lia. Qed.
  Lemma counts_call n a u pack : 0 < futex -> 0 < n -> 0 < u < 2 ^ 63 -> keys_given n a -> pack <> Boolean true ->
    exists d ncount, BinCountCall ord threading futex junk (PArray a) u pack = Done (Counts d ncount) /\ wide_enough n d /\ histogram u (arg_vals 0 a) ncount.
  Proof.
    intros HF HN HU K HP. rewrite (bincount_opened n a u pack HN HU K).
    assert (EP : get_pack pack = false) by (destruct pack as [|[|]|]; auto; congruence). rewrite EP.
    destruct (GroupProps.C15_bincount_counts ord threading futex (arg_vals 0 a) (Z.to_nat u) (junk (length (arg_vals 0 a))) HF ltac:(lia) (vals_nonempty n a HN (proj1 (proj2 K))))
      as (c & E & H). rewrite E. rewrite Z2Nat.id in H by lia. exists (row_dtype n), c. split; [reflexivity|]. split; [apply row_dtype_right|exact H].
  Qed.
  Lemma packed_call n a u : fair ord -> new_array junk -> 0 < futex -> 0 < n -> 0 < u < 2 ^ 63 -> keys_given n a ->
    exists d ncount igroup ifirst, BinCountCall ord threading futex junk (PArray a) u (Boolean true) = Done (Packed d ncount igroup ifirst) /\ wide_enough n d /\
      histogram u (arg_vals 0 a) ncount /\ packed_rows u (arg_vals 0 a) ncount igroup ifirst /\ (all_in_range u (arg_vals 0 a) -> all_rows (arg_vals 0 a) igroup).
  Proof.
    intros FO NJ HF HN HU K. rewrite (bincount_opened n a u _ HN HU K). cbn [get_pack].
    destruct (GroupProps.C15_bincount_packed ord threading futex (arg_vals 0 a) (Z.to_nat u) (junk (length (arg_vals 0 a))) FO HF ltac:(lia) (vals_nonempty n a HN (proj1 (proj2 K))) (NJ _))
      as (c & g & f & E & H). rewrite E. rewrite Z2Nat.id in H by lia. exists (row_dtype n), c, g, f. split; [reflexivity|]. split; [apply row_dtype_right|exact H].
  Qed.
  Lemma bincount_refused keys u pack :
    (forall a, keys <> PArray a) \/ ~ (- 2 ^ 63 <= u < 2 ^ 63) \/ u <= 0 \/ (exists a, keys = PArray a /\ a_len a = 0) ->
    BinCountCall ord threading futex junk keys u pack = Error.
  Proof.
    intros H. unfold BinCountCall. destruct keys as [|a|]; try reflexivity.
    destruct (int64_ok u) eqn:E; cbn [negb]; [|reflexivity]. unfold int64_ok in E. apply andb_true_iff in E as [E1 E2]. apply Z.leb_le in E1. apply Z.ltb_lt in E2.
    destruct H as [H|[H|[H|(a' & H & L)]]].
    - now elim (H a).
    - exfalso. apply H. split; assumption.
    - destruct (Z.eqb_spec u 0); cbn [orb]; [reflexivity|]. destruct (a_len a <=? 0); [reflexivity|]. now rewrite (proj2 (Z.ltb_lt u 0)) by lia.
    - injection H as <-. rewrite L. cbn [Z.leb Z.compare]. now rewrite orb_true_r.
  Qed.

  Context (mix : list (list GroupModel.gop) -> list GroupModel.gop).
  Lemma group_call n u a c : (forall ps, interleave ps (mix ps)) -> new_array junk -> 0 < futex -> 0 <= n -> 0 <= u -> keys_given n a ->
    arg_ok u c -> gapless c -> wide_enough n (a_dtype c) -> histogram u (arg_vals 0 a) (arg_vals 0 c) ->
    exists igroup ifirst, GroupFromBinCountCall mix threading futex junk (PArray a) (PArray c) = Done (a_dtype c, igroup, ifirst) /\
      packed_rows u (arg_vals 0 a) (arg_vals 0 c) igroup ifirst /\ (all_in_range u (arg_vals 0 a) -> all_rows (arg_vals 0 a) igroup).
  Proof.
    intros IL NJ HF HN HU ((bits & T) & OK & G) OKC GC W H. unfold GroupFromBinCountCall. pose proof (proj1 OK) as EL. rewrite EL.
    rewrite (row_dtype_only _ _ W), Z.eqb_refl, (type_has_function _ _ T). cbn [negb].
    rewrite (read_arg_right 0 n a), (read_arg_right 0 u c) by (auto; lia). cbn [undef obind].
    assert (EU : Z.of_nat (length (arg_vals 0 c)) = u) by exact (proj1 H).
    pose proof (GroupProps.C14_group_from_bincount threading futex (arg_vals 0 a) (arg_vals 0 c) (mix (GroupModel.gfb_programs threading futex (arg_vals 0 a) (arg_vals 0 c)))
      (junk (length (arg_vals 0 a))) HF) as X. rewrite EU in X. destruct (X H (NJ _) (IL _)) as (g & f & E & R). rewrite E. exists g, f. split; [reflexivity|exact R].
  Qed.
  Lemma group_refused keys count :
    (forall a, keys <> PArray a) \/ (forall c, count <> PArray c) \/ (exists a c, keys = PArray a /\ count = PArray c /\ ~ wide_enough (a_len a) (a_dtype c)) ->
    GroupFromBinCountCall mix threading futex junk keys count = Error.
  Proof.
    intros H. unfold GroupFromBinCountCall. destruct keys as [|a|], count as [|c|]; try reflexivity.
    destruct H as [H|[H|(a' & c' & Ha & Hc & W)]]; [now elim (H a)|now elim (H c)|]. injection Ha as <-. injection Hc as <-.
    destruct (Z.eqb_spec (row_dtype (a_len a)) (a_dtype c)) as [E|E]; cbn [negb]; [|reflexivity]. elim W. rewrite <- E. apply row_dtype_right.
  Qed.

  Lemma next_call n a bits u mode : new_array junk -> 0 <= n -> signed_type (a_dtype a) bits -> arg_ok n a -> gapless a -> 0 <= u < 2 ^ 63 - 1 -> - 2 ^ 63 <= mode < 2 ^ 63 ->
    all_in_range (u + 1) (arg_vals 0 a) -> n <= 2 ^ (bits - 1) ->
    exists res, MakeiNextCall junk (PArray a) u mode = Done (a_dtype a, res) /\ length res = Z.to_nat n /\
      forall i, (i < Z.to_nat n)%nat -> exists r, nth_error res i = Some r /\
        if mode =? 0 then next_same (arg_vals 0 a) (- 2 ^ (bits - 1)) i r else prev_same (arg_vals 0 a) (- 2 ^ (bits - 1)) i r.
  Proof.
    intros NJ HN T OK G HU HM R HB. unfold MakeiNextCall. rewrite !int64_right by lia. cbn [andb negb].
    assert (ET : (10 <=? a_dtype a) || Z.even (a_dtype a) = false) by (now destruct T). rewrite ET, (type_bits _ _ T).
    rewrite (read_arg_right 0 n a) by (auto; lia). cbn [undef obind]. pose proof (arg_vals_length 0 n a OK) as EL.
    assert (HW : 0 < bits) by (destruct T; lia).
    destruct (GroupProps.C19_make_inext_partial bits (negb (mode =? 0)) (arg_vals 0 a) u (junk (length (arg_vals 0 a))) HW ltac:(lia) R (NJ _) ltac:(rewrite EL; lia)) as (res & E & L & S).
    rewrite E, <- EL. exists res. split; [reflexivity|]. split; [exact L|]. intros i Hi. destruct (S i Hi) as (r & Er & P). exists r. split; [exact Er|].
    destruct (mode =? 0); exact P.
  Qed.
  Lemma next_refused keys u mode :
    (forall a, keys <> PArray a) \/ ~ (- 2 ^ 63 <= u < 2 ^ 63) \/ ~ (- 2 ^ 63 <= mode < 2 ^ 63) \/
    (exists a, keys = PArray a /\ 0 <= a_dtype a /\ forall bits, ~ signed_type (a_dtype a) bits) ->
    MakeiNextCall junk keys u mode = Error.
  Proof.
    intros H. unfold MakeiNextCall. destruct keys as [|a|]; try reflexivity.
    destruct (int64_ok u) eqn:E; [|reflexivity]. destruct (int64_ok mode) eqn:E'; [|reflexivity]. cbn [andb negb].
    unfold int64_ok in E, E'. apply andb_true_iff in E as [E1 E2], E' as [E3 E4]. apply Z.leb_le in E1, E3. apply Z.ltb_lt in E2, E4.
    destruct H as [H|[H|[H|(a' & H & P & L)]]]; [now elim (H a)|elim H; split; assumption|elim H; split; assumption|]. injection H as <-.
    destruct (Z.leb_spec 10 (a_dtype a)); [reflexivity|]. cbn [orb].
    assert (C : a_dtype a = 0 \/ a_dtype a = 1 \/ a_dtype a = 2 \/ a_dtype a = 3 \/ a_dtype a = 4 \/ a_dtype a = 5 \/ a_dtype a = 6 \/ a_dtype a = 7 \/ a_dtype a = 8 \/ a_dtype a = 9) by lia.
    destruct C as [C|[C|[C|[C|[C|[C|[C|[C|[C|C]]]]]]]]]; rewrite C in *; try reflexivity; exfalso; eapply L; constructor.
  Qed.
End Calls.

(** The layout is the only one. *)
Lemma layout_firsts n keys ncount igroup ifirst : packed_rows n keys ncount igroup ifirst -> forall g, 0 <= g < n -> nth_error ifirst (Z.to_nat g) = Some (zsum (firstn (Z.to_nat g) ncount)).
Proof. intros (_ & _ & H) g Hg. destruct (H g Hg) as (f & c & E & _ & -> & _). exact E. Qed.
Lemma layout_prefix u keys ncount igroup ifirst : histogram (Z.of_nat u) keys ncount -> packed_rows (Z.of_nat u) keys ncount igroup ifirst ->
  forall k, (k <= u)%nat -> firstn (Z.to_nat (zsum (firstn k ncount))) igroup = concat (map (rows_with keys) (map Z.of_nat (seq 0 k))).
Proof.
  intros HG (_ & _ & H) k. induction k as [|k IH]; intros Hk; [reflexivity|].
  destruct (H (Z.of_nat k) ltac:(lia)) as (f & c & _ & Ec & Ef & SL). rewrite Nat2Z.id in *.
  pose proof (proj2 HG (Z.of_nat k) ltac:(lia)) as Ec'. rewrite Nat2Z.id, Ec in Ec'. injection Ec' as ->.
  assert (E1 : firstn (S k) ncount = firstn k ncount ++ [count_of keys (Z.of_nat k)]).
  { apply list_ext. intros j. rewrite nth_error_firstn. assert (LK : length (firstn k ncount) = k) by (rewrite firstn_length; apply nth_error_Some_lt in Ec; lia).
    destruct (Nat.ltb_spec j (S k)).
    - destruct (Nat.eq_dec j k) as [-> |N].
      + rewrite nth_error_app2 by lia. rewrite LK, Nat.sub_diag. exact Ec.
      + rewrite nth_error_app1 by lia. rewrite nth_error_firstn. destruct (Nat.ltb_spec j k); [reflexivity|lia].
    - symmetry. apply nth_error_None. rewrite app_length, LK. cbn. lia. }
  assert (P : 0 <= zsum (firstn k ncount)).
  { apply GroupProofs.zsum_nonneg. intros x Hx. apply GroupProofs.in_firstn, In_nth_error in Hx as (j & Hj). pose proof (nth_error_Some_lt _ _ _ Hj) as Lj.
    assert (B : (j < u)%nat) by (destruct HG as [L _]; lia). pose proof (proj2 HG (Z.of_nat j) ltac:(lia)) as X. rewrite Nat2Z.id, Hj in X. injection X as ->. unfold count_of. lia. }
  rewrite E1, zsum_app. replace (zsum [count_of keys (Z.of_nat k)]) with (count_of keys (Z.of_nat k)) by (unfold zsum; cbn; lia).
  assert (PC : 0 <= count_of keys (Z.of_nat k)) by (unfold count_of; lia). rewrite Z2Nat.inj_add by assumption.
  rewrite seq_S, map_app, map_app, concat_app. cbn [map concat Nat.add]. rewrite app_nil_r, <- IH by lia.
  rewrite <- SL, Ef. unfold slice. set (p := Z.to_nat (zsum (firstn k ncount))). set (q := Z.to_nat (count_of keys (Z.of_nat k))). clearbody p q. clear.
  revert igroup. induction p as [|p IH]; intros [|x l]; cbn; try now rewrite ?firstn_nil. f_equal. apply IH.
Qed.
Lemma layout_only u keys ncount igroup ifirst igroup' ifirst' : 0 <= u -> histogram u keys ncount -> all_in_range u keys ->
  packed_rows u keys ncount igroup ifirst -> packed_rows u keys ncount igroup' ifirst' -> igroup' = igroup /\ ifirst' = ifirst.
Proof.
  intros HU H R P P'. split.
  - rewrite <- (Z2Nat.id u HU) in H, R, P, P'. pose proof (GroupProofs.histogram_eq _ _ _ H) as EH.
    assert (EL : Z.of_nat (length keys) = zsum ncount).
    { rewrite EH, <- GroupProofs.grouped_length. rewrite (Permutation_length (GroupProofs.grouped_perm _ _ R)). unfold GroupProofs.zseq. now rewrite map_length, seq_length. }
    assert (EN : firstn (Z.to_nat u) ncount = ncount) by (apply firstn_all2; destruct H as [L _]; lia).
    pose proof (layout_prefix _ _ _ _ _ H P _ (Nat.le_refl _)) as A. pose proof (layout_prefix _ _ _ _ _ H P' _ (Nat.le_refl _)) as B.
    rewrite EN, <- EL, Nat2Z.id in A, B. rewrite firstn_all2 in A by (destruct P as [L _]; lia). rewrite firstn_all2 in B by (destruct P' as [L _]; lia). congruence.
  - assert (LF : Z.of_nat (length ifirst) = u) by exact (proj1 (proj2 P)). assert (LF' : Z.of_nat (length ifirst') = u) by exact (proj1 (proj2 P')). apply list_ext. intros j. destruct (Nat.lt_ge_cases j (length ifirst)) as [B|B].
    + pose proof (layout_firsts _ _ _ _ _ P (Z.of_nat j) ltac:(lia)) as X. pose proof (layout_firsts _ _ _ _ _ P' (Z.of_nat j) ltac:(lia)) as Y. rewrite Nat2Z.id in X, Y. congruence.
    + rewrite !(proj2 (nth_error_None _ _)) by lia. reflexivity.
Qed.
Lemma fresh_right d l : arg_ok (Z.of_nat (length l)) (fresh d l) /\ gapless (fresh d l) /\ arg_vals 0 (fresh d l) = l.
Proof.
  split; [|split; [left; reflexivity|]].
  - unfold arg_ok, fresh. cbn [a_len a_start a_mem a_step]. split; [reflexivity|]. split; [lia|intros; lia].
  - unfold arg_vals, fresh. cbn [a_len a_start a_mem a_step]. rewrite Nat2Z.id. apply nth_ext with (d := 0) (d' := 0); [now rewrite map_length, seq_length|].
    intros i Hi. rewrite map_length, seq_length in Hi. rewrite GroupProofs.nth_map_seq by exact Hi. f_equal. lia.
Qed.
Lemma two_steps_call ord threading futex junk mix n a u ncount d : fair ord -> (forall ps, interleave ps (mix ps)) -> new_array junk -> 0 < futex -> 0 < n -> 0 < u < 2 ^ 63 ->
  keys_given n a -> all_in_range u (arg_vals 0 a) -> BinCountCall ord threading futex junk (PArray a) u NotGiven = Done (Counts d ncount) ->
  exists igroup ifirst, GroupFromBinCountCall mix threading futex junk (PArray a) (PArray (fresh d ncount)) = Done (d, igroup, ifirst) /\
    BinCountCall ord threading futex junk (PArray a) u (Boolean true) = Done (Packed d ncount igroup ifirst).
Proof.
  intros FO IL NJ HF HN HU K R E.
  destruct (counts_call ord threading futex junk n a u NotGiven HF HN HU K ltac:(discriminate)) as (d1 & c1 & E1 & W1 & H1). rewrite E1 in E. injection E as -> ->.
  destruct (packed_call ord threading futex junk n a u FO NJ HF HN HU K) as (d2 & c2 & g2 & f2 & E2 & W2 & H2 & P2 & _).
  assert (ED : d2 = d) by (rewrite <- (row_dtype_only _ _ W1); symmetry; apply row_dtype_only; exact W2).
  assert (EC : c2 = ncount) by (assert (U : u = Z.of_nat (Z.to_nat u)) by lia; rewrite U in H1, H2; now rewrite (GroupProofs.histogram_eq _ _ _ H1), (GroupProofs.histogram_eq _ _ _ H2)).
  subst d2 c2. destruct (fresh_right d ncount) as (OK & GL & EV). assert (EU : Z.of_nat (length ncount) = u) by exact (proj1 H1). rewrite EU in OK.
  destruct (group_call threading futex junk mix n u a (fresh d ncount) IL NJ HF ltac:(lia) ltac:(lia) K OK GL W1 ltac:(rewrite EV; exact H1)) as (g3 & f3 & E3 & P3 & _).
  rewrite EV in P3. destruct (layout_only u _ _ _ _ _ _ ltac:(lia) H1 R P2 P3) as [-> ->]. exists g2, f2. split; [exact E3|exact E2].
Qed.
